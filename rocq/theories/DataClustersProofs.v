From Verif Require Import DataClustersSpec.
Open Scope Z_scope.

Ltac conj := repeat match goal with |- _ /\ _ => split end.
Arguments Nat.div : simpl never.
Arguments Nat.modulo : simpl never.

(** * List helpers *)
Lemma pyget_in A (l : list A) i d :
  0 <= i < Z.of_nat (length l) -> pyget l i = Ok (nth (Z.to_nat i) l d).
Proof.
  intros H; unfold pyget.
  destruct (Z.ltb_spec i 0); [lia|].
  destruct (Z.ltb_spec i 0); [lia|]. cbn [orb].
  destruct (Z.leb_spec (Z.of_nat (length l)) i); [lia|].
  rewrite (nth_error_nth' l d) by lia. reflexivity.
Qed.

Lemma pyget_nth_error A (l : list A) k a :
  nth_error l k = Some a -> pyget l (Z.of_nat k) = Ok a.
Proof.
  intros H. assert (k < length l)%nat by (apply nth_error_Some; congruence).
  rewrite (pyget_in _ _ _ a) by lia. rewrite Nat2Z.id.
  f_equal. apply nth_error_nth with (d := a) in H. exact H.
Qed.

Lemma pyget_last A (l : list A) a : pyget (l ++ [a]) (-1) = Ok a.
Proof.
  unfold pyget. cbn [Z.ltb Z.compare]. rewrite app_length; cbn [length].
  destruct (Z.ltb_spec (-1 + Z.of_nat (length l + 1)) 0); [lia|].
  destruct (Z.leb_spec (Z.of_nat (length l + 1)) (-1 + Z.of_nat (length l + 1))); [lia|].
  cbn [orb]. rewrite nth_error_app2 by lia.
  replace (Z.to_nat (-1 + Z.of_nat (length l + 1)) - length l)%nat with 0%nat by lia.
  reflexivity.
Qed.

Lemma last_case A (l : list A) : l = [] \/ exists l' a, l = l' ++ [a].
Proof.
  destruct l as [|a l] using rev_ind; [left; reflexivity|right; eauto].
Qed.

Lemma nth_error_upd A (l : list A) k j a :
  nth_error (upd l k a) j =
  if Nat.eqb j k then match nth_error l k with Some _ => Some a | None => None end
  else nth_error l j.
Proof.
  revert k j; induction l as [|b l IH]; intros k j; destruct k, j; cbn; auto;
    try (destruct (Nat.eqb_spec j k); reflexivity); try apply IH.
Qed.

Lemma upd_app A (l1 l2 : list A) b a : upd (l1 ++ b :: l2) (length l1) a = l1 ++ a :: l2.
Proof. induction l1; cbn; [reflexivity | f_equal; assumption]. Qed.

Lemma upd_length A (l : list A) k a : length (upd l k a) = length l.
Proof. revert k; induction l; destruct k; cbn; auto. Qed.

Lemma insert_at_app A (l1 l2 : list A) a : insert_at (l1 ++ l2) (length l1) a = l1 ++ a :: l2.
Proof.
  unfold insert_at. rewrite firstn_app, firstn_all, Nat.sub_diag; cbn [firstn].
  rewrite app_nil_r, skipn_app, skipn_all, Nat.sub_diag; reflexivity.
Qed.

(** * Chains: the inductive form of [well_formed] *)
Fixpoint chain (p n : Z) (cs : list (Z * Z)) : Prop :=
  match cs with
  | [] => True
  | (lo, hi) :: r => p < lo /\ lo <= hi /\ hi < n /\ chain hi n r
  end.

Lemma chain_weaken p p' n cs : p' <= p -> chain p n cs -> chain p' n cs.
Proof. destruct cs as [|[lo hi] r]; cbn; intuition lia. Qed.

Lemma chain_lb p n cs : chain p n cs -> forall lo hi, In (lo, hi) cs -> p < lo /\ lo <= hi /\ hi < n.
Proof.
  revert p; induction cs as [|[a b] r IH]; cbn; intros p H lo hi Hin; [tauto|].
  destruct Hin as [E|Hin].
  - injection E as -> ->. tauto.
  - destruct H as (H1 & H2 & H3 & H4). specialize (IH _ H4 _ _ Hin). lia.
Qed.

Lemma chain_app p n l1 l2 :
  chain p n (l1 ++ l2) <->
  chain p n l1 /\ chain (match rev l1 with [] => p | (_, h) :: _ => h end) n l2.
Proof.
  revert p; induction l1 as [|[a b] l1 IH]; intros p; cbn [app chain rev]; [tauto|].
  rewrite IH. 
  assert (E : match rev l1 ++ [(a, b)] with [] => p | (_, h) :: _ => h end =
              match rev l1 with [] => b | (_, h) :: _ => h end).
  { destruct (rev l1) as [|[? ?] ?]; reflexivity. }
  rewrite E. tauto.
Qed.

Lemma chain_wf n cs : chain (-1) n cs <-> well_formed n cs.
Proof.
  split.
  - intros H; split.
    + intros k lo hi Hk. apply nth_error_In in Hk.
      pose proof (chain_lb _ _ _ H _ _ Hk). lia.
    + revert H. generalize (-1). induction cs as [|[a b] r IH]; intros p H i j lo hi lo' hi' Hij Hi Hj.
      { destruct i; discriminate. }
      cbn in H. destruct H as (H1 & H2 & H3 & H4).
      destruct j as [|j]; [lia|]. cbn in Hj.
      destruct i as [|i]; cbn in Hi.
      * injection Hi as <- <-. apply nth_error_In in Hj.
        pose proof (chain_lb _ _ _ H4 _ _ Hj). lia.
      * eapply (IH b H4 i j); eauto; lia.
  - intros [H1 H2].
    assert (G : forall p, (match cs with [] => True | (lo,_)::_ => p < lo end) -> chain p n cs).
    { induction cs as [|[a b] r IH]; intros p Hp; cbn; [trivial|].
      pose proof (H1 0%nat a b eq_refl). repeat split; try lia.
      apply IH.
      - intros k lo hi Hk. apply (H1 (S k) lo hi Hk).
      - intros i j lo hi lo' hi' Hij Hi Hj. apply (H2 (S i) (S j) lo hi lo' hi'); auto; lia.
      - destruct r as [|[c d] r]; [trivial|].
        apply (H2 0%nat 1%nat a b c d); auto. }
    apply G. destruct cs as [|[a b] r]; [trivial|].
    pose proof (H1 0%nat a b eq_refl). lia.
Qed.

(** * Searching the flattened clusters *)
Lemma flatten_app a b : flatten (a ++ b) = flatten a ++ flatten b.
Proof. induction a as [|[? ?] ? IH]; cbn; [reflexivity|now rewrite IH]. Qed.
Lemma flatten_length a : length (flatten a) = (2 * length a)%nat.
Proof. induction a as [|[? ?] ? IH]; cbn; [reflexivity|rewrite IH; lia]. Qed.

Lemma split_search n p cs idx :
  chain p n cs ->
  exists pre post, cs = pre ++ post /\
    (forall lo hi, In (lo, hi) pre -> hi < idx) /\
    (forall lo hi, In (lo, hi) post -> idx <= hi) /\
    searchsorted_left (flatten cs) idx =
      (2 * length pre + match post with (lo, _) :: _ => if (lo <? idx)%Z then 1 else 0 | [] => 0 end)%nat.
Proof.
  revert p; induction cs as [|[a b] r IH]; intros p H.
  - exists [], []. cbn. intuition.
  - destruct H as (H1 & H2 & H3 & H4). cbn [flatten searchsorted_left].
    destruct (Z.ltb_spec b idx) as [Hb|Hb].
    + destruct (Z.ltb_spec a idx); [|lia].
      destruct (IH b H4) as (pre & post & -> & P1 & P2 & P3).
      exists ((a, b) :: pre), post. split; [reflexivity|]. split; [|split; [exact P2|]].
      * intros lo hi [E|Hin]; [injection E as <- <-; lia|eauto].
      * rewrite P3. cbn [length]. lia.
    + exists [], ((a, b) :: r). split; [reflexivity|]. split; [cbn; tauto|]. split.
      * intros lo hi [E|Hin]; [injection E as <- <-; lia|].
        pose proof (chain_lb _ _ _ H4 _ _ Hin). lia.
      * cbn [length]. destruct (Z.ltb_spec a idx); reflexivity.
Qed.

(** * Coordinates *)
Section Rnd.
Variable rnd : Z -> Z.
Hypothesis Hrnd : faithful rnd.

Lemma rnd_mono a b : a <= b -> rnd a <= rnd b. Proof. apply Hrnd. Qed.
Lemma rnd_zero a : rnd a = 0 <-> a = 0. Proof. apply Hrnd. Qed.
Lemma rnd_pos a : 0 < a -> 0 < rnd a.
Proof.
  intros H. pose proof (rnd_mono 0 a ltac:(lia)). pose proof (proj2 (rnd_zero 0) eq_refl).
  pose proof (rnd_zero a). lia.
Qed.
Lemma rnd_neg a : a < 0 -> rnd a < 0.
Proof.
  intros H. pose proof (rnd_mono a 0 ltac:(lia)). pose proof (proj2 (rnd_zero 0) eq_refl).
  pose proof (rnd_zero a). lia.
Qed.

Lemma at_lt x i j : increasing x -> 0 <= i -> i < j -> j < Z.of_nat (length x) -> at_ x i < at_ x j.
Proof.
  intros Hx H0 Hij Hj. unfold at_.
  apply (Hx (Z.to_nat i) (Z.to_nat j)); [lia| |]; apply nth_error_nth'; lia.
Qed.

Lemma at_le x i j : increasing x -> 0 <= i -> i <= j -> j < Z.of_nat (length x) -> at_ x i <= at_ x j.
Proof.
  intros. destruct (Z.eq_dec i j) as [->|]; [lia|].
  pose proof (at_lt x i j). intuition lia.
Qed.

(** The functional characterisation of the query. *)
Definition nearest_spec (x : list Z) (cs : list (Z * Z)) (idx : Z) (k : nat) (d : Z) : Prop :=
  exists lo hi, nth_error cs k = Some (lo, hi) /\
    ((lo <= idx <= hi /\ d = 0) \/
     (idx < lo /\ d = rnd (at_ x idx - at_ x lo) /\ d < 0 /\
        (forall lo' hi', (exists k', S k' = k /\ nth_error cs k' = Some (lo', hi')) -> hi' < idx)) \/
     (hi < idx /\ d = rnd (at_ x idx - at_ x hi) /\ 0 < d /\
        (forall lo' hi', nth_error cs (S k) = Some (lo', hi') ->
                         idx < lo' /\ d < gap rnd x (lo', hi') idx))) /\
    (forall k' c', nth_error cs k' = Some c' -> Z.abs d <= gap rnd x c' idx).

Lemma gap_left x lo hi idx : idx < lo -> gap rnd x (lo, hi) idx = Z.abs (rnd (at_ x idx - at_ x lo)).
Proof. intros; unfold gap; cbn. destruct (Z.ltb_spec idx lo); [reflexivity|lia]. Qed.
Lemma gap_right x lo hi idx : lo <= hi -> hi < idx -> gap rnd x (lo, hi) idx = Z.abs (rnd (at_ x idx - at_ x hi)).
Proof.
  intros; unfold gap; cbn. destruct (Z.ltb_spec idx lo); [lia|].
  destruct (Z.ltb_spec hi idx); [reflexivity|lia].
Qed.
Lemma gap_nonneg x c idx : 0 <= gap rnd x c idx.
Proof. unfold gap. destruct (_ <? _); [lia|]. destruct (_ <? _); lia. Qed.
Lemma gap_inside x lo hi idx : lo <= idx <= hi -> gap rnd x (lo, hi) idx = 0.
Proof.
  intros; unfold gap; cbn. destruct (Z.ltb_spec idx lo); [lia|].
  destruct (Z.ltb_spec hi idx); [lia|reflexivity].
Qed.

Lemma find_nearest_ok s idx :
  st s <> INIT -> increasing (xs s) ->
  well_formed (Z.of_nat (length (xs s))) (clusters s) -> clusters s <> [] ->
  0 <= idx < Z.of_nat (length (xs s)) ->
  exists k d, find_nearest_cluster rnd s idx = Ok (Some (k, d)) /\
              nearest_spec (xs s) (clusters s) idx k d.
Proof.
  intros Hst Hx Hwf Hne Hidx.
  set (x := xs s) in *. set (n := Z.of_nat (length x)) in *.
  apply chain_wf in Hwf.
  destruct (split_search _ _ _ idx Hwf) as (pre & post & Ecs & Hpre & Hpost & Hss).
  unfold find_nearest_cluster.
  assert (Hlen : length (flatten (clusters s)) <> 0%nat).
  { rewrite flatten_length. destruct (clusters s); [congruence|cbn; lia]. }
  destruct (Nat.eqb_spec (length (flatten (clusters s))) 0) as [E|_]; [congruence|].
  rewrite Hss.
  assert (Hb : forall lo hi, In (lo, hi) (clusters s) -> 0 <= lo /\ lo <= hi /\ hi < n).
  { intros lo hi Hin. pose proof (chain_lb _ _ _ Hwf _ _ Hin). lia. }
  assert (Hgetx : forall i, 0 <= i < n -> pyget (xs s) i = Ok (at_ x i)).
  { intros i Hi. unfold at_. apply pyget_in. exact Hi. }
  (* distance to clusters on the left is at least that to the last of pre *)
  assert (HL : forall pre' lo hi, pre = pre' ++ [(lo, hi)] ->
            forall k' c', nth_error pre k' = Some c' ->
            0 < rnd (at_ x idx - at_ x hi) <= gap rnd x c' idx).
  { intros pre' lo hi Ep k' [l h] Hk'.
    assert (Hin : In (l, h) pre) by (eapply nth_error_In; eauto).
    assert (Hin2 : In (lo, hi) pre) by (rewrite Ep; apply in_or_app; right; left; reflexivity).
    pose proof (Hpre _ _ Hin). pose proof (Hpre _ _ Hin2).
    assert (Hb1 := Hb l h ltac:(rewrite Ecs; apply in_or_app; now left)).
    assert (Hb2 := Hb lo hi ltac:(rewrite Ecs; apply in_or_app; now left)).
    rewrite gap_right by lia.
    assert (h <= hi).
    { apply chain_wf in Hwf. destruct Hwf as [_ W].
      assert (k' < length pre)%nat by (apply nth_error_Some; congruence).
      assert (Hl : nth_error (clusters s) (length pre') = Some (lo, hi)).
      { rewrite Ecs, Ep, <- app_assoc. rewrite nth_error_app2, Nat.sub_diag by lia. reflexivity. }
      assert (Hk2 : nth_error (clusters s) k' = Some (l, h)).
      { rewrite Ecs, nth_error_app1 by lia. exact Hk'. }
      rewrite Ep, app_length in H1; cbn in H1.
      destruct (Nat.eq_dec k' (length pre')) as [->|].
      - rewrite Hl in Hk2. injection Hk2 as -> ->. lia.
      - pose proof (W k' (length pre') _ _ _ _ ltac:(lia) Hk2 Hl). lia. }
    pose proof (at_le x h hi Hx ltac:(lia) ltac:(lia) ltac:(fold n; lia)).
    pose proof (at_lt x hi idx Hx ltac:(lia) ltac:(lia) ltac:(fold n; lia)).
    pose proof (rnd_mono (at_ x idx - at_ x hi) (at_ x idx - at_ x h) ltac:(lia)).
    pose proof (rnd_pos (at_ x idx - at_ x hi) ltac:(lia)). lia. }
  (* distance to clusters on the right, when idx is left of the head of post *)
  assert (HR : forall lo hi post', post = (lo, hi) :: post' -> idx < lo ->
            rnd (at_ x idx - at_ x lo) < 0 /\
            forall k' c', nth_error post k' = Some c' ->
            Z.abs (rnd (at_ x idx - at_ x lo)) <= gap rnd x c' idx).
  { intros lo hi post' Ep Hlt.
    assert (Hin2 : In (lo, hi) (clusters s)) by (rewrite Ecs, Ep; apply in_or_app; right; left; reflexivity).
    pose proof (Hb _ _ Hin2).
    pose proof (at_lt x idx lo Hx ltac:(lia) ltac:(lia) ltac:(fold n; lia)).
    pose proof (rnd_neg (at_ x idx - at_ x lo) ltac:(lia)).
    split; [lia|]. intros k' [l h] Hk'.
    assert (Hin : In (l, h) (clusters s)).
    { rewrite Ecs; apply in_or_app; right. eapply nth_error_In; eauto. }
    pose proof (Hb _ _ Hin).
    assert (lo <= l).
    { destruct k' as [|k'].
      - rewrite Ep in Hk'. injection Hk' as -> ->. lia.
      - apply chain_wf in Hwf. destruct Hwf as [_ W].
        assert (Hl : nth_error (clusters s) (length pre) = Some (lo, hi)).
        { rewrite Ecs, Ep, nth_error_app2, Nat.sub_diag by lia. reflexivity. }
        assert (Hk2 : nth_error (clusters s) (length pre + S k') = Some (l, h)).
        { rewrite Ecs, nth_error_app2 by lia. 
          replace (length pre + S k' - length pre)%nat with (S k') by lia. exact Hk'. }
        pose proof (W (length pre) (length pre + S k')%nat _ _ _ _ ltac:(lia) Hl Hk2). lia. }
    rewrite gap_left by lia.
    pose proof (at_le x lo l Hx ltac:(lia) ltac:(lia) ltac:(fold n; lia)).
    pose proof (rnd_mono (at_ x idx - at_ x l) (at_ x idx - at_ x lo) ltac:(lia)). lia. }
  assert (Hnth : forall k' c', nth_error (clusters s) k' = Some c' ->
            nth_error pre k' = Some c' \/ exists j, k' = (length pre + j)%nat /\ nth_error post j = Some c').
  { intros k' c' Hk'. rewrite Ecs in Hk'.
    destruct (Nat.lt_ge_cases k' (length pre)).
    - left. rewrite nth_error_app1 in Hk' by lia. exact Hk'.
    - right. rewrite nth_error_app2 in Hk' by lia. exists (k' - length pre)%nat. split; [lia|exact Hk']. }
  assert (Hflatlen : length (flatten (clusters s)) = (2 * length pre + 2 * length post)%nat).
  { rewrite flatten_length, Ecs, app_length. lia. }
  rewrite Hflatlen.
  destruct post as [|[lo hi] post'].
  - (* right of the last cluster *)
    cbn [length]. rewrite Nat.mul_0_r.
    replace (2 * length pre + 0)%nat with (length pre * 2)%nat by lia.
    rewrite Nat.eqb_refl, Nat.div_mul by lia.
    rewrite app_nil_r in Ecs.
    destruct (last_case _ pre) as [->|(pre' & [lo hi] & Ep)]; [congruence|].
    exists (length pre - 1)%nat, (rnd (at_ x idx - at_ x hi)).
    assert (Hin : In (lo, hi) (clusters s)) by (rewrite Ecs, Ep; apply in_or_app; right; left; reflexivity).
    pose proof (Hb _ _ Hin).
    rewrite (Hgetx idx Hidx). cbn [bind].
    rewrite Ecs, Ep, pyget_last. cbn [bind snd]. rewrite (Hgetx hi) by lia. cbn [bind].
    split.
    { destruct (st s); try congruence; rewrite <- Ep; reflexivity. }
    exists lo, hi. rewrite app_length; cbn [length].
    replace (length pre' + 1 - 1)%nat with (length pre') by lia.
    split. { rewrite nth_error_app2, Nat.sub_diag by lia. reflexivity. }
    assert (Hlast : nth_error pre (length pre') = Some (lo, hi)).
    { rewrite Ep, nth_error_app2, Nat.sub_diag by lia. reflexivity. }
    pose proof (HL _ _ _ Ep _ _ Hlast).
    split.
    + right; right. repeat split; try lia.
      * apply (Hpre lo hi). rewrite Ep; apply in_or_app; right; left; reflexivity.
      * exfalso. assert (Hs : nth_error (pre' ++ [(lo, hi)]) (S (length pre')) <> None) by congruence.
        apply nth_error_Some in Hs. rewrite app_length in Hs; cbn in Hs. lia.
      * exfalso. assert (Hs : nth_error (pre' ++ [(lo, hi)]) (S (length pre')) <> None) by congruence.
        apply nth_error_Some in Hs. rewrite app_length in Hs; cbn in Hs. lia.
    + intros k' c' Hk'. rewrite <- Ep in Hk'. pose proof (HL _ _ _ Ep _ _ Hk'). lia.
  - assert (Hin : In (lo, hi) (clusters s)) by (rewrite Ecs; apply in_or_app; right; left; reflexivity).
    pose proof (Hb _ _ Hin) as Hlh.
    pose proof (Hpost lo hi ltac:(left; reflexivity)) as Hih.
    assert (Hkk : nth_error (clusters s) (length pre) = Some (lo, hi)).
    { rewrite Ecs, nth_error_app2, Nat.sub_diag by lia. reflexivity. }
    cbn [length].
    destruct (Z.ltb_spec lo idx) as [Hlo|Hlo].
    + (* strictly inside *)
      destruct (Nat.eqb_spec (2 * length pre + 1) (2 * length pre + 2 * S (length post'))) as [E|_]; [lia|].
      assert (Ediv : ((2 * length pre + 1) / 2 = length pre)%nat).
      { replace (2 * length pre + 1)%nat with (1 + length pre * 2)%nat by lia.
        rewrite Nat.div_add by lia. reflexivity. }
      assert (Emod : ((2 * length pre + 1) mod 2 = 1)%nat).
      { replace (2 * length pre + 1)%nat with (1 + length pre * 2)%nat by lia.
        rewrite Nat.mod_add by lia. reflexivity. }
      rewrite (pyget_in _ _ _ 0) by (rewrite Hflatlen; cbn [length]; lia). cbn [bind].
      rewrite Ediv, Emod, Nat.eqb_refl, orb_true_r.
      exists (length pre), 0. split; [destruct (st s); congruence|].
      exists lo, hi. split; [exact Hkk|]. split; [left; lia|].
      intros k' c' Hk'. apply gap_nonneg.
    + rewrite Nat.add_0_r.
      destruct (Nat.eqb_spec (2 * length pre) (2 * length pre + 2 * S (length post'))) as [E|_]; [lia|].
      assert (Ediv : ((2 * length pre) / 2 = length pre)%nat).
      { rewrite Nat.mul_comm, Nat.div_mul by lia. reflexivity. }
      assert (Emod : ((2 * length pre) mod 2 = 0)%nat).
      { rewrite Nat.mul_comm, Nat.mod_mul by lia. reflexivity. }
      assert (Hf : pyget (flatten (clusters s)) (Z.of_nat (2 * length pre)) = Ok lo).
      { apply pyget_nth_error. rewrite Ecs, flatten_app, nth_error_app2, flatten_length by (rewrite flatten_length; lia).
        rewrite Nat.sub_diag. reflexivity. }
      rewrite Hf. cbn [bind].
      rewrite Ediv, Emod. cbn [Nat.eqb]. rewrite orb_false_r.
      destruct (Z.eqb_spec lo idx) as [->|Hne2].
      { exists (length pre), 0. split; [destruct (st s); congruence|].
        exists idx, hi. split; [exact Hkk|]. split; [left; lia|].
        intros k' c' Hk'. apply gap_nonneg. }
      destruct (HR lo hi post' eq_refl ltac:(lia)) as [HR1 HR2].
      destruct (Nat.eqb_spec (2 * length pre) 0) as [E0|E0].
      * (* left of the first cluster *)
        assert (pre = []) by (destruct pre; [reflexivity|cbn in E0; lia]). subst pre. cbn [length] in *.
        rewrite (Hgetx idx Hidx). cbn [bind].
        change 0 with (Z.of_nat 0). rewrite (pyget_nth_error _ _ _ _ Hkk). cbn [bind fst Z.of_nat].
        rewrite (Hgetx lo) by lia. cbn [bind].
        exists 0%nat, (rnd (at_ x idx - at_ x lo)). split; [destruct (st s); congruence|].
        exists lo, hi. split; [exact Hkk|]. split.
        { right; left. repeat split; try lia. intros lo' hi' (k' & Hk' & _). lia. }
        intros k' c' Hk'. destruct (Hnth _ _ Hk') as [Hk2|(j & -> & Hk2)]; [destruct k'; discriminate|].
        apply (HR2 _ _ Hk2).
      * destruct (last_case _ pre) as [->|(pre' & [lo0 hi0] & Ep)]; [cbn in E0; lia|].
        assert (Hin0 : In (lo0, hi0) pre) by (rewrite Ep; apply in_or_app; right; left; reflexivity).
        pose proof (Hb lo0 hi0 ltac:(rewrite Ecs; apply in_or_app; now left)) as Hb0.
        pose proof (Hpre _ _ Hin0) as Hp0.
        assert (Elen : length pre = S (length pre')) by (rewrite Ep, app_length; cbn; lia).
        assert (Hkl : nth_error (clusters s) (length pre') = Some (lo0, hi0)).
        { rewrite Ecs, Ep, <- app_assoc, nth_error_app2, Nat.sub_diag by lia. reflexivity. }
        rewrite (Hgetx idx Hidx). cbn [bind].
        replace (Z.of_nat (length pre) - 1) with (Z.of_nat (length pre')) by lia.
        rewrite (pyget_nth_error _ _ _ _ Hkl). cbn [bind].
        rewrite (pyget_nth_error _ _ _ _ Hkk). cbn [bind fst snd].
        rewrite (Hgetx hi0) by lia. cbn [bind]. rewrite (Hgetx lo) by lia. cbn [bind].
        assert (Hlast : nth_error pre (length pre') = Some (lo0, hi0)).
        { rewrite Ep, nth_error_app2, Nat.sub_diag by lia. reflexivity. }
        pose proof (HL _ _ _ Ep _ _ Hlast) as HLl.
        destruct (Z.ltb_spec (rnd (at_ x idx - at_ x hi0)) (Z.abs (rnd (at_ x idx - at_ x lo)))) as [Hc|Hc].
        -- exists (length pre - 1)%nat, (rnd (at_ x idx - at_ x hi0)).
           split; [destruct (st s); congruence|].
           replace (length pre - 1)%nat with (length pre') by lia.
           exists lo0, hi0. split; [exact Hkl|]. split.
           { right; right. repeat split; try lia.
             - rewrite <- Elen, Hkk in H. injection H as <- <-. lia.
             - rewrite <- Elen, Hkk in H. injection H as <- <-. rewrite gap_left by lia. lia. }
           intros k' c' Hk'. destruct (Hnth _ _ Hk') as [Hk2|(j & -> & Hk2)].
           ++ pose proof (HL _ _ _ Ep _ _ Hk2). lia.
           ++ pose proof (HR2 _ _ Hk2). lia.
        -- exists (length pre), (rnd (at_ x idx - at_ x lo)).
           split; [destruct (st s); congruence|].
           exists lo, hi. split; [exact Hkk|]. split.
           { right; left. repeat split; try lia.
             intros lo' hi' (k' & Hk' & Hk2). replace k' with (length pre') in Hk2 by lia.
             rewrite Hkl in Hk2. injection Hk2 as <- <-. lia. }
           intros k' c' Hk'. destruct (Hnth _ _ Hk') as [Hk2|(j & -> & Hk2)].
           ++ pose proof (HL _ _ _ Ep _ _ Hk2). lia.
           ++ apply (HR2 _ _ Hk2).
Qed.

Lemma nearest_zero_covered x cs idx k d :
  nearest_spec x cs idx k d -> d = 0 -> covered cs idx.
Proof.
  intros (lo & hi & Hk & [[H1 H2]|[H|H]] & _) ->; [|lia|lia].
  exists lo, hi; split; [eapply nth_error_In; eauto|lia].
Qed.

Lemma wf_unique n cs i j a b i0 : well_formed n cs -> nth_error cs i = Some a ->
  nth_error cs j = Some b -> fst a <= i0 <= snd a -> fst b <= i0 <= snd b -> i = j.
Proof.
  intros [W1 W2] Hi Hj Ha Hb. destruct a as [a1 a2], b as [b1 b2]; cbn in *.
  destruct (Nat.lt_trichotomy i j) as [L|[E|L]]; [|exact E|].
  - pose proof (W2 _ _ _ _ _ _ L Hi Hj). lia.
  - pose proof (W2 _ _ _ _ _ _ L Hj Hi). lia.
Qed.

Lemma nearest_nonzero_uncovered x cs n idx k d :
  increasing x -> n = Z.of_nat (length x) -> well_formed n cs -> 0 <= idx < n ->
  nearest_spec x cs idx k d -> d <> 0 -> ~ covered cs idx.
Proof.
  intros Hx Hn Hwf Hidx (lo & hi & Hk & Hc & Hmin) Hd (l & h & Hin & Hlh).
  apply In_nth_error in Hin. destruct Hin as [k' Hk'].
  pose proof (Hmin _ _ Hk'). rewrite gap_inside in H by lia. lia.
Qed.

(** * Invariant *)
Section Inv.
Variable argsort : list Z -> list Z.
Hypothesis Hsort : argsort_ok argsort.
Variables (x y : list Z) (r : Z).
Hypothesis Hx : increasing x.

Definition ord (j : nat) : Z := nth j (argsort y) 0.

Record Inv (s : dc) : Prop := {
  I_x : xs s = x; I_y : ys s = y; I_res : res s = r; I_ord : order s = argsort y;
  I_len : length x = length y; I_pos : (0 < length x)%nat; I_r : 0 <= r;
  I_st : st s <> INIT;
  I_wf : well_formed (Z.of_nat (length x)) (clusters s);
  I_ne : clusters s <> [];
  I_cur : (cur s < length x)%nat;
  I_cov : forall j, (cur s <= j < length x)%nat -> covered (clusters s) (ord j);
  I_done : st s = DONE -> cur s = 0%nat
}.

Lemma argsort_length : length (argsort y) = length y.
Proof.
  destruct (Hsort y) as [P _]. apply Permutation_length in P.
  now rewrite map_length, seq_length in P.
Qed.

Lemma ord_range j : (j < length y)%nat -> 0 <= ord j < Z.of_nat (length y).
Proof.
  intros H. destruct (Hsort y) as [P _].
  assert (Hin : In (ord j) (argsort y)) by (apply nth_In; rewrite argsort_length; lia).
  apply (Permutation_in _ P) in Hin. apply in_map_iff in Hin.
  destruct Hin as (k & <- & Hk). apply in_seq in Hk. lia.
Qed.

Lemma ord_surj i : 0 <= i < Z.of_nat (length y) -> exists j, (j < length y)%nat /\ ord j = i.
Proof.
  intros H. destruct (Hsort y) as [P _].
  assert (Hin : In i (argsort y)).
  { apply (Permutation_in _ (Permutation_sym P)). apply in_map_iff.
    exists (Z.to_nat i). split; [lia|]. apply in_seq. lia. }
  apply In_nth with (d := 0) in Hin. destruct Hin as (j & Hj & E).
  rewrite argsort_length in Hj. exists j; auto.
Qed.

Lemma ord_mono i j : (i <= j < length y)%nat -> at_ y (ord i) <= at_ y (ord j).
Proof.
  intros H. destruct (Nat.eq_dec i j) as [->|]; [lia|].
  destruct (Hsort y) as [_ S]. unfold at_.
  apply (S i j); [lia| |]; apply nth_error_nth'; rewrite argsort_length; lia.
Qed.

Lemma pyget_order s j : Inv s -> (j < length x)%nat -> pyget (order s) (Z.of_nat j) = Ok (ord j).
Proof.
  intros I Hj. rewrite (I_ord _ I). apply pyget_nth_error. apply nth_error_nth'.
  rewrite argsort_length, <- (I_len _ I). exact Hj.
Qed.

Lemma find_inv s i : Inv s -> 0 <= i < Z.of_nat (length x) ->
  exists k d, find_nearest_cluster rnd s i = Ok (Some (k, d)) /\
              nearest_spec x (clusters s) i k d.
Proof.
  intros I Hi. rewrite <- (I_x _ I) in *.
  apply find_nearest_ok; rewrite ?(I_x _ I) in *; auto; apply I.
Qed.

Lemma scan_ok s : Inv s -> forall c t nr, (c < length x)%nat -> snd nr = 0 ->
  (exists t' nr', scan rnd s c t nr = Ok (0%nat, t', nr') /\ snd nr' = 0 /\
     forall j, (j < c)%nat -> covered (clusters s) (ord j)) \/
  (exists c' k d, scan rnd s c t nr = Ok (c', Some (ord c'), (k, d)) /\ (c' < c)%nat /\
     d <> 0 /\ nearest_spec x (clusters s) (ord c') k d /\
     forall j, (c' < j < c)%nat -> covered (clusters s) (ord j)).
Proof.
  intros I. induction c as [|c IH]; intros t nr Hc Hnr; cbn [scan]; rewrite Hnr; cbn [Z.eqb].
  - left. exists t, nr. repeat split; auto. lia.
  - rewrite (pyget_order s c I) by lia. cbn [bind].
    assert (Hr : 0 <= ord c < Z.of_nat (length x)).
    { rewrite (I_len _ I). apply ord_range. rewrite <- (I_len _ I). lia. }
    destruct (find_inv s (ord c) I Hr) as (k & d & Hf & Hn). rewrite Hf. cbn [bind].
    destruct (Z.eq_dec d 0) as [Hd|Hd].
    + destruct (IH (Some (ord c)) (k, d) ltac:(lia) Hd)
        as [(t' & nr' & H1 & H2 & H3)|(c' & k' & d' & H1 & H2 & H3 & H4 & H5)].
      * left. exists t', nr'. repeat split; auto. intros j Hj.
        destruct (Nat.eq_dec j c) as [->|]; [|apply H3; lia].
        eapply nearest_zero_covered; eauto.
      * right. exists c', k', d'. repeat split; auto; try lia. intros j Hj.
        destruct (Nat.eq_dec j c) as [->|]; [|apply H5; lia].
        eapply nearest_zero_covered; eauto.
    + right. exists c, k, d. split.
      { destruct c; cbn [scan snd]; destruct (Z.eqb_spec d 0); try congruence; reflexivity. }
      repeat split; auto; lia.
Qed.

(** What one successful step does to the clusters. *)
Definition opened (cs cs' : list (Z * Z)) (t : Z) (k : nat) : Prop :=
  exists pre post, cs = pre ++ post /\ cs' = pre ++ (t, t) :: post /\ k = length pre /\
    forall c, In c cs -> r < gap rnd x c t.
Definition extended (cs cs' : list (Z * Z)) (t : Z) (k : nat) : Prop :=
  exists pre post lo hi, cs = pre ++ (lo, hi) :: post /\
    cs' = pre ++ (Z.min lo t, Z.max hi t) :: post /\ k = length pre /\
    gap rnd x (lo, hi) t <= r /\ forall c, In c cs -> gap rnd x (lo, hi) t <= gap rnd x c t.

Definition same_data (s s' : dc) : Prop :=
  xs s' = xs s /\ ys s' = ys s /\ order s' = order s /\ res s' = res s.

Lemma inv_proj s : Inv s ->
  Inv (mkdc (xs s) (ys s) (order s) (clusters s) (res s) (cur s) (lastc s) (lastp s) CLUSTERING).
Proof. intros I; destruct I; constructor; cbn; auto; discriminate. Qed.

Lemma prev_last (l1 l2 : list (Z * Z)) c a h tl_ :
  rev l1 = (a, h) :: tl_ -> exists k', S k' = length l1 /\ nth_error (l1 ++ c :: l2) k' = Some (a, h).
Proof.
  intros E. apply (f_equal (@rev _)) in E. rewrite rev_involutive in E. cbn in E.
  exists (length (rev tl_)). rewrite E, app_length; cbn. split; [lia|].
  rewrite <- app_assoc, nth_error_app2, Nat.sub_diag by lia. reflexivity.
Qed.

Lemma next_cases s : Inv s -> st s <> DONE ->
  (exists s', next rnd s = (s', Err StopIteration) /\ same_data s s' /\
     clusters s' = clusters s /\ st s' = DONE /\ cur s' = 0%nat /\
     lastc s' = lastc s /\ lastp s' = lastp s /\
     (forall j, (j < length x)%nat -> covered (clusters s) (ord j))) \/
  (exists s' c' k, next rnd s = (s', Ok tt) /\ same_data s s' /\ (c' < cur s)%nat /\
     cur s' = c' /\ (st s' = DONE /\ c' = 0%nat \/ st s' = CLUSTERING /\ (0 < c')%nat) /\
     lastp s' = Some (ord c') /\ lastc s' = Some k /\
     ~ covered (clusters s) (ord c') /\
     (forall j, (c' < j < length x)%nat -> covered (clusters s) (ord j)) /\
     well_formed (Z.of_nat (length x)) (clusters s') /\
     (opened (clusters s) (clusters s') (ord c') k \/
      extended (clusters s) (clusters s') (ord c') k)).
Proof.
  intros I Hnd.
  set (s1 := mkdc (xs s) (ys s) (order s) (clusters s) (res s) (cur s)
                   (lastc s) (lastp s) CLUSTERING).
  pose proof (inv_proj s I) as I1. fold s1 in I1.
  assert (Enext : next rnd s = (match scan rnd s1 (cur s) None (0%nat, 0) with
    | Err e => (s1, Err e)
    | Ok (c', t, (nc, d)) =>
      let st' := if Nat.eqb c' 0 then DONE else CLUSTERING in
      let s2 := mkdc (xs s) (ys s) (order s) (clusters s) (res s) c'
                     (lastc s) (lastp s) st' in
      if Nat.eqb c' 0 && (d =? 0) then (s2, Err StopIteration)
      else
      match t with
      | None => (s2, Err GenericException)
      | Some ti =>
        if Z.abs d <=? res s then
          match nth_error (clusters s) nc with
          | None => (s2, Err IndexError)
          | Some (lo, hi) =>
            let c2 := if ti <? lo then (ti, hi) else (lo, ti) in
            (mkdc (xs s) (ys s) (order s) (upd (clusters s) nc c2) (res s) c'
                  (Some nc) (Some ti) st', Ok tt)
          end
        else
          let k := if d <? 0 then nc else S nc in
          (mkdc (xs s) (ys s) (order s) (insert_at (clusters s) k (ti, ti)) (res s) c'
                (Some k) (Some ti) st', Ok tt)
      end
    end)).
  { unfold next. pose proof (I_st _ I). destruct (st s); [congruence|reflexivity|reflexivity|congruence]. }
  rewrite Enext. clear Enext.
  destruct (scan_ok s1 I1 (cur s) None (0%nat, 0) (I_cur _ I) eq_refl)
    as [(t' & [nc d] & Hs & Hd & Hcov)|(c' & k & d & Hs & Hc' & Hd & Hn & Hcov)]; rewrite Hs.
  - cbn in Hd. subst d. cbn [Nat.eqb Z.eqb andb].
    left. eexists. split; [reflexivity|]. cbn.
    repeat split; auto. intros j Hj.
    destruct (Nat.lt_ge_cases j (cur s)); [apply Hcov; lia|apply (I_cov _ I); lia].
  - right. cbn [clusters s1] in Hn, Hcov. clear Hs.
    assert (Et : (Nat.eqb c' 0 && (d =? 0))%bool = false).
    { destruct (Z.eqb_spec d 0); [congruence|apply andb_false_r]. }
    cbn zeta. rewrite Et. 
    assert (Hcov2 : forall j, (c' < j < length x)%nat -> covered (clusters s) (ord j)).
    { intros j Hj. destruct (Nat.lt_ge_cases j (cur s)); [apply Hcov; lia|apply (I_cov _ I); lia]. }
    pose proof (I_cur _ I) as Hcl.
    assert (Hr : 0 <= ord c' < Z.of_nat (length x)).
    { rewrite (I_len _ I). apply ord_range. rewrite <- (I_len _ I). lia. }
    assert (Hunc : ~ covered (clusters s) (ord c')).
    { eapply nearest_nonzero_uncovered; eauto. apply (I_wf _ I). }
    assert (Hstat : forall c, (if Nat.eqb c 0 then DONE else CLUSTERING) = DONE /\ c = 0%nat \/
               (if Nat.eqb c 0 then DONE else CLUSTERING) = CLUSTERING /\ (0 < c)%nat).
    { intros c. destruct (Nat.eqb_spec c 0); [left|right]; split; auto; lia. }
    destruct Hn as (lo & hi & Hk & Hpos & Hmin).
    pose proof (I_wf _ I) as Hwf. apply chain_wf in Hwf.
    destruct (nth_error_split _ _ Hk) as (pre & post & Ecs & Elen).
    pose proof Hwf as Hwf'. rewrite Ecs in Hwf'. apply chain_app in Hwf'.
    destruct Hwf' as [Hpre Hpost]. cbn [chain] in Hpost. destruct Hpost as (Q1 & Q2 & Q3 & Q4).
    assert (Hgap : gap rnd x (lo, hi) (ord c') = Z.abs d).
    { destruct Hpos as [[? ?]|[(P1 & P2 & P3 & P4)|(P1 & P2 & P3 & P4)]]; [congruence| |].
      - rewrite gap_left by lia. congruence.
      - rewrite gap_right by lia. congruence. }
    assert (Hmin' : forall c, In c (clusters s) -> Z.abs d <= gap rnd x c (ord c')).
    { intros c Hin. apply In_nth_error in Hin. destruct Hin as [k' Hk']. eauto. }
    rewrite (I_res _ I).
    destruct (Z.leb_spec (Z.abs d) r) as [Hle|Hgt].
    + rewrite Hk. cbv zeta.
      eexists _, c', k. split; [reflexivity|]. unfold same_data. cbn [xs ys order res cur lastc lastp st clusters].
      rewrite (I_res _ I).
      assert (Eupd : upd (clusters s) k (if ord c' <? lo then (ord c', hi) else (lo, ord c')) =
                     pre ++ (Z.min lo (ord c'), Z.max hi (ord c')) :: post).
      { rewrite Ecs, <- Elen, upd_app. f_equal. f_equal.
        destruct (Z.ltb_spec (ord c') lo); f_equal; lia. }
      rewrite Eupd.
      conj; auto.
      * apply chain_wf, chain_app. split; [exact Hpre|]. cbn [chain].
        destruct Hpos as [[? ?]|[(P1 & P2 & P3 & P4)|(P1 & P2 & P3 & P4)]]; [congruence| |].
        -- rewrite Z.min_r, Z.max_l by lia. repeat split; try lia; auto.
           destruct (rev pre) as [|[a h] tl_] eqn:Er; [lia|].
           destruct (prev_last pre post (lo, hi) a h tl_ Er) as (k' & E1 & E2).
           apply (P4 a h). exists k'. split; [lia|]. rewrite Ecs. exact E2.
        -- rewrite Z.min_l, Z.max_r by lia. repeat split; try lia; auto.
           destruct post as [|[a b] post]; cbn; [trivial|]. cbn in Q4.
           assert (Ha : nth_error (clusters s) (S k) = Some (a, b)).
           { rewrite Ecs, nth_error_app2 by lia. replace (S k - length pre)%nat with 1%nat by lia. reflexivity. }
           destruct (P4 a b Ha). intuition lia.
      * right. exists pre, post, lo, hi. repeat split; auto; rewrite ?Hgap; auto.
    + cbv zeta.
      assert (Hopen : forall c, In c (clusters s) -> r < gap rnd x c (ord c')).
      { intros c Hin. specialize (Hmin' c Hin). lia. }
      destruct Hpos as [[? ?]|[(P1 & P2 & P3 & P4)|(P1 & P2 & P3 & P4)]]; [congruence| |].
      * destruct (Z.ltb_spec d 0); [|lia].
        eexists _, c', k. split; [reflexivity|]. unfold same_data. cbn [xs ys order res cur lastc lastp st clusters].
        rewrite (I_res _ I).
        assert (Eins : insert_at (clusters s) k (ord c', ord c') =
                       pre ++ (ord c', ord c') :: (lo, hi) :: post).
        { rewrite Ecs, <- Elen. apply insert_at_app. }
        rewrite Eins.
        conj; auto.
        -- apply chain_wf, chain_app. split; [exact Hpre|]. cbn [chain].
           repeat split; try lia; auto.
           destruct (rev pre) as [|[a h] tl_] eqn:Er; [lia|].
           destruct (prev_last pre post (lo, hi) a h tl_ Er) as (k' & E1 & E2).
           apply (P4 a h). exists k'. split; [lia|]. rewrite Ecs. exact E2.
        -- left. exists pre, ((lo, hi) :: post). repeat split; auto.
      * destruct (Z.ltb_spec d 0); [lia|].
        eexists _, c', (S k). split; [reflexivity|]. unfold same_data. cbn [xs ys order res cur lastc lastp st clusters].
        rewrite (I_res _ I).
        assert (Eins : insert_at (clusters s) (S k) (ord c', ord c') = 
                       (pre ++ [(lo, hi)]) ++ (ord c', ord c') :: post).
        { rewrite Ecs. change ((lo, hi) :: post) with ([(lo, hi)] ++ post). rewrite app_assoc.
          replace (S k) with (length (pre ++ [(lo, hi)])) by (rewrite app_length; cbn; lia).
          apply insert_at_app. }
        rewrite Eins.
        conj; auto.
        -- apply chain_wf. rewrite <- app_assoc. apply chain_app. split; [exact Hpre|]. cbn [app chain].
           repeat split; try lia; auto.
           destruct post as [|[a b] post]; cbn; [trivial|]. cbn in Q4.
           assert (Ha : nth_error (clusters s) (S k) = Some (a, b)).
           { rewrite Ecs, nth_error_app2 by lia. replace (S k - length pre)%nat with 1%nat by lia. reflexivity. }
           destruct (P4 a b Ha). intuition lia.
        -- left. exists (pre ++ [(lo, hi)]), post. repeat split; auto.
           ++ rewrite Ecs, <- app_assoc. reflexivity.
           ++ rewrite app_length; cbn; lia.
Qed.

Lemma opened_covered cs cs' t k i : opened cs cs' t k -> (covered cs' i <-> covered cs i \/ i = t).
Proof.
  intros (pre & post & -> & -> & _ & _). unfold covered. split.
  - intros (lo & hi & Hin & Hi). apply in_app_or in Hin.
    destruct Hin as [Hin|[E|Hin]].
    + left. exists lo, hi. split; [apply in_or_app; now left|auto].
    + injection E as <- <-. right; lia.
    + left. exists lo, hi. split; [apply in_or_app; now right|auto].
  - intros [(lo & hi & Hin & Hi)| ->].
    + exists lo, hi. split; [|auto]. apply in_app_or in Hin. apply in_or_app. cbn. tauto.
    + exists t, t. split; [apply in_or_app; right; left; reflexivity|lia].
Qed.

Lemma extended_covered cs cs' t k i : extended cs cs' t k -> covered cs i \/ i = t -> covered cs' i.
Proof.
  intros (pre & post & lo & hi & -> & -> & _ & _) [(l & h & Hin & Hi)| ->].
  - apply in_app_or in Hin. destruct Hin as [Hin|[E|Hin]].
    + exists l, h. split; [apply in_or_app; now left|auto].
    + injection E as <- <-. exists (Z.min lo t), (Z.max hi t).
      split; [apply in_or_app; right; left; reflexivity|lia].
    + exists l, h. split; [apply in_or_app; right; right; auto|auto].
  - exists (Z.min lo t), (Z.max hi t). split; [apply in_or_app; right; left; reflexivity|lia].
Qed.

Lemma step_covered cs cs' t k i : opened cs cs' t k \/ extended cs cs' t k ->
  covered cs i \/ i = t -> covered cs' i.
Proof.
  intros [O|E] H; [apply (opened_covered _ _ _ _ i O); auto|eapply extended_covered; eauto].
Qed.

Lemma next_inv s : Inv s -> Inv (fst (next rnd s)).
Proof.
  intros I.
  assert (HD : st s = DONE \/ st s <> DONE) by (destruct (st s); auto; right; discriminate).
  destruct HD as [HD|HD].
  - unfold next. rewrite HD. exact I.
  - destruct (next_cases s I HD) as
      [(s' & -> & SD & Ecs & Est & Ec & _ & _ & Hall)|
       (s' & c' & k & -> & SD & Hc & Ec & Est & _ & _ & _ & Hcov & Hwf & Hstep)];
    destruct SD as (D1 & D2 & D3 & D4); cbn [fst];
    constructor; rewrite ?D1, ?D2, ?D3, ?D4; try apply I.
    + congruence.
    + rewrite Ecs; apply I.
    + rewrite Ecs; apply I.
    + rewrite Ec; apply I.
    + rewrite Ec, Ecs. intros j Hj. apply Hall. lia.
    + intros _; exact Ec.
    + destruct Est as [[-> _]|[-> _]]; discriminate.
    + exact Hwf.
    + destruct Hstep as [(pre & post & _ & -> & _)|(pre & post & lo & hi & _ & -> & _)];
        destruct pre; discriminate.
    + pose proof (I_cur _ I). lia.
    + rewrite Ec. intros j Hj. eapply step_covered; eauto.
      destruct (Nat.eq_dec j c') as [->|]; [now right|left; apply Hcov; lia].
    + destruct Est as [[_ H]|[H1 _]]; [lia|congruence].
Qed.
End Inv.
End Rnd.

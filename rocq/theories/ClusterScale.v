(** C227: what the clustering depends on.  A simulation between two DataClusters objects
    whose data differ by an order-preserving change of the values and a change of scale and
    origin of the coordinates. *)
From Coq Require Import Sorted.
From Verif Require Import Prelude DataClusters DataClustersSpec.
Open Scope Z_scope.

(** *** Sorting order is unique when no two values are equal *)
Lemma sorted_unique {A} (R : A -> A -> Prop) : (forall a b, R a b -> ~ R b a) -> forall l m, StronglySorted R l -> StronglySorted R m -> Permutation l m -> l = m.
Proof.
  intros AS l. induction l as [|a l IH]; intros m L M PM.
  - apply Permutation_nil in PM. now subst.
  - destruct m as [|b m]; [apply Permutation_sym, Permutation_nil in PM; discriminate|].
    inversion L as [|? ? L1 L2]; subst. inversion M as [|? ? M1 M2]; subst. rewrite Forall_forall in L2, M2.
    assert (E : a = b).
    { assert (In a (b :: m)) as [E|I] by (eapply Permutation_in; [exact PM|now left]); [now subst|].
      assert (In b (a :: l)) as [E|J] by (eapply Permutation_in; [apply Permutation_sym, PM|now left]); [now subst|].
      exfalso. apply (AS a b); [now apply L2|now apply M2]. }
    subst b. f_equal. apply IH; try assumption. now apply Permutation_cons_inv in PM.
Qed.

Section Order.
Variables (y : list Z) (f : Z -> Z).
Hypothesis f_up : forall u v, u < v -> f u < f v.
Definition key (i : Z) : Z := nth (Z.to_nat i) y 0.
Lemma f_le u v : f u <= f v <-> u <= v.
Proof. split; intros H; destruct (Z.lt_trichotomy u v) as [L|[->|L]]; try lia; apply f_up in L; lia. Qed.
Lemma key_map i : (Z.to_nat i < length y)%nat -> nth (Z.to_nat i) (map f y) 0 = f (key i).
Proof. intros H. unfold key. rewrite nth_indep with (d' := f 0) by (now rewrite map_length). now rewrite map_nth. Qed.
Lemma argsort_unique s1 s2 : argsort_ok s1 -> argsort_ok s2 -> NoDup y -> s2 (map f y) = s1 y.
Proof.
  intros A1 A2 N. destruct (A1 y) as [P1 O1]. destruct (A2 (map f y)) as [P2 O2]. rewrite map_length in P2.
  assert (IR : forall i, In i (map Z.of_nat (seq 0 (length y))) -> 0 <= i /\ (Z.to_nat i < length y)%nat).
  { intros i I. apply in_map_iff in I. destruct I as (k & <- & I). apply in_seq in I. rewrite Nat2Z.id. lia. }
  assert (ND : NoDup (map Z.of_nat (seq 0 (length y)))) by (apply FinFun.Injective_map_NoDup; [intros u v; apply Nat2Z.inj|apply seq_NoDup]).
  assert (KI : forall i j, In i (map Z.of_nat (seq 0 (length y))) -> In j (map Z.of_nat (seq 0 (length y))) -> key i = key j -> i = j).
  { intros i j I J E. apply IR in I, J. unfold key in E. apply (proj1 (NoDup_nth y 0) N) in E; lia. }
  assert (G : forall l, Permutation l (map Z.of_nat (seq 0 (length y))) ->
              (forall i j a b, (i < j)%nat -> nth_error l i = Some a -> nth_error l j = Some b -> key a <= key b) ->
              StronglySorted (fun a b => key a < key b) l).
  { intros l PL OL. assert (NL : NoDup l) by (eapply Permutation_NoDup; [apply Permutation_sym, PL|exact ND]).
    assert (IL : forall a, In a l -> In a (map Z.of_nat (seq 0 (length y)))) by (intros a; apply Permutation_in, PL).
    clear PL. induction l as [|a l IH]; [constructor|]. inversion NL as [|? ? NA NL']; subst. constructor.
    - apply IH; [intros i j u v L U V; exact (OL (S i) (S j) u v ltac:(lia) U V)|exact NL'|intros u U; apply IL; now right].
    - apply Forall_forall. intros b B. destruct (In_nth_error _ _ B) as [j J].
      pose proof (OL 0%nat (S j) a b ltac:(lia) eq_refl J) as LE.
      assert (key a <> key b) by (intros E; apply KI in E; [subst; contradiction|apply IL; now left|apply IL; now right]). lia. }
  apply (sorted_unique (fun a b => key a < key b)); [intros u v; cbn; lia| | |].
  - apply G; [exact P2|]. intros i j a b L Ha Hb. specialize (O2 i j a b L Ha Hb).
    assert (Ia : In a (map Z.of_nat (seq 0 (length y)))) by (eapply Permutation_in; [exact P2|eapply nth_error_In; exact Ha]).
    assert (Ib : In b (map Z.of_nat (seq 0 (length y)))) by (eapply Permutation_in; [exact P2|eapply nth_error_In; exact Hb]).
    rewrite !key_map in O2 by (now apply IR). exact (proj1 (f_le _ _) O2).
  - apply G; [exact P1|]. exact O1.
  - transitivity (map Z.of_nat (seq 0 (length y))); [exact P2|now apply Permutation_sym].
Qed.
End Order.

(** *** The simulation *)
Section Sim.
Variables (rnd rnd' : Z -> Z) (a b : Z).
Hypothesis a_pos : 0 < a.
Hypothesis rnd_scale : forall z, rnd' (a * z) = a * rnd z.
Definition affine (t : Z) : Z := a * t + b.
Definition sim (s s' : dc) : Prop :=
  xs s' = map affine (xs s) /\ order s' = order s /\ clusters s' = clusters s /\ res s' = a * res s /\
  cur s' = cur s /\ lastc s' = lastc s /\ lastp s' = lastp s /\ st s' = st s.
Definition stretch (r : result (option (nat * Z))) : result (option (nat * Z)) :=
  match r with Ok (Some (k, d)) => Ok (Some (k, a * d)) | r => r end.

Lemma pyget_map {A B} (h : A -> B) l i : pyget (map h l) i = match pyget l i with Ok v => Ok (h v) | Err e => Err e end.
Proof.
  unfold pyget. rewrite map_length. destruct ((_ <? 0) || _); [reflexivity|]. rewrite nth_error_map. now destruct (nth_error l _).
Qed.
Lemma rnd_g u v : rnd' (affine u - affine v) = a * rnd (u - v).
Proof. rewrite <- rnd_scale. f_equal. unfold affine. ring. Qed.

Lemma near_sim s s' i : sim s s' -> find_nearest_cluster rnd' s' i = stretch (find_nearest_cluster rnd s i).
Proof using a_pos rnd_scale.
  intros (X & O & C & R & _ & _ & _ & S). unfold find_nearest_cluster. rewrite S, C, X.
  destruct (st s); [reflexivity| | |];
  (destruct (Nat.eqb (length (flatten (clusters s))) 0); [reflexivity|];
   destruct (Nat.eqb _ (length _));
   [rewrite pyget_map; destruct (pyget (xs s) i) as [xi|]; [|reflexivity]; cbn [bind];
    destruct (pyget (clusters s) (-1)) as [c|]; [|reflexivity]; cbn [bind]; rewrite pyget_map;
    destruct (pyget (xs s) (snd c)); [|reflexivity]; cbn [bind stretch]; now rewrite rnd_g|];
   destruct (pyget (flatten _) _); [|reflexivity]; cbn [bind];
   destruct (_ || _); [cbn [stretch]; now rewrite Z.mul_0_r|];
   destruct (Nat.eqb _ 0);
   [rewrite pyget_map; destruct (pyget (xs s) i) as [xi|]; [|reflexivity]; cbn [bind];
    destruct (pyget (clusters s) 0) as [c|]; [|reflexivity]; cbn [bind]; rewrite pyget_map;
    destruct (pyget (xs s) (fst c)); [|reflexivity]; cbn [bind stretch]; now rewrite rnd_g|];
   rewrite pyget_map; destruct (pyget (xs s) i) as [xi|]; [|reflexivity]; cbn [bind];
   destruct (pyget (clusters s) (_ - 1)) as [cl|]; [|reflexivity]; cbn [bind];
   destruct (pyget (clusters s) _) as [cr|]; [|reflexivity]; cbn [bind]; rewrite !pyget_map;
   destruct (pyget (xs s) (snd cl)) as [xl|]; [|reflexivity]; cbn [bind];
   destruct (pyget (xs s) (fst cr)) as [xr|]; [|reflexivity]; cbn [bind]; rewrite !rnd_g;
   replace (a * rnd (xi - xl) <? Z.abs (a * rnd (xi - xr))) with (rnd (xi - xl) <? Z.abs (rnd (xi - xr)));
   [destruct (_ <? _); reflexivity|
    rewrite Z.abs_mul, (Z.abs_eq a) by lia; destruct (Z.ltb_spec (rnd (xi - xl)) (Z.abs (rnd (xi - xr)))); symmetry; [apply Z.ltb_lt|apply Z.ltb_ge]; nia]).
Qed.

Lemma ss_map l v : searchsorted_left (map affine l) (affine v) = searchsorted_left l v.
Proof using a_pos.
  induction l as [|u l IH]; [reflexivity|]. cbn [map searchsorted_left]. rewrite IH.
  replace (affine u <? affine v) with (u <? v); [reflexivity|]. unfold affine. destruct (Z.ltb_spec u v); symmetry; [apply Z.ltb_lt|apply Z.ltb_ge]; nia.
Qed.
Lemma near2_sim s s' v : sim s s' -> find_nearest_cluster2 rnd' s' (affine v) = stretch (find_nearest_cluster2 rnd s v).
Proof using a_pos rnd_scale.
  intros H. pose proof H as (X & O & C & R & _ & _ & _ & S). unfold find_nearest_cluster2. rewrite S, X, ss_map, map_length.
  destruct (st s); [reflexivity| | |];
  (destruct (_ || _); [now apply near_sim|]; rewrite !pyget_map;
   destruct (pyget (xs s) _) as [xi|]; [|reflexivity]; cbn [bind];
   destruct (pyget (xs s) (_ - 1)) as [xp|]; [|reflexivity]; cbn [bind]; rewrite !rnd_g;
   replace (a * rnd (xi - v) <? a * rnd (v - xp)) with (rnd (xi - v) <? rnd (v - xp));
   [destruct (_ <? _); now apply near_sim|
    destruct (Z.ltb_spec (rnd (xi - v)) (rnd (v - xp))); symmetry; [apply Z.ltb_lt|apply Z.ltb_ge]; nia]).
Qed.

Lemma zero_scale d : (a * d =? 0) = (d =? 0).
Proof using a_pos. destruct (Z.eqb_spec d 0) as [->|N]; [rewrite Z.mul_0_r; reflexivity|]. apply Z.eqb_neq. nia. Qed.
Lemma scan_sim s s' : sim s s' -> forall c t nr,
  scan rnd' s' c t (fst nr, a * snd nr) =
  match scan rnd s c t nr with Ok (c', t', nr') => Ok (c', t', (fst nr', a * snd nr')) | Err e => Err e end.
Proof using a_pos rnd_scale.
  intros H c. induction c as [|c IH]; intros t nr.
  - cbn [scan snd]. rewrite zero_scale. destruct (snd nr =? 0); reflexivity.
  - cbn [scan snd]. rewrite zero_scale. destruct (snd nr =? 0); [|reflexivity].
    pose proof H as (_ & O & _). rewrite O. destruct (pyget (order s) (Z.of_nat c)) as [ti|]; [|reflexivity]. cbn [bind].
    rewrite (near_sim s s' ti H). destruct (find_nearest_cluster rnd s ti) as [[[k d]|]|]; cbn [stretch bind]; try reflexivity.
    exact (IH (Some ti) (k, d)).
Qed.
Lemma next_sim s s' : sim s s' -> sim (fst (next rnd s)) (fst (next rnd' s')) /\ snd (next rnd' s') = snd (next rnd s).
Proof using a_pos rnd_scale.
  intros H. pose proof H as (X & O & C & R & U & LC & LP & S). unfold next. rewrite S.
  destruct (st s) eqn:ST; try (split; [exact H|reflexivity]);
  (set (s1 := mkdc (xs s) (ys s) (order s) (clusters s) (res s) (cur s) (lastc s) (lastp s) CLUSTERING);
   set (s1' := mkdc (xs s') (ys s') (order s') (clusters s') (res s') (cur s') (lastc s') (lastp s') CLUSTERING);
   assert (H1 : sim s1 s1') by (repeat split; assumption);
   rewrite U; change (0%nat, 0) with (fst (0%nat, 0), snd (0%nat, 0)) at 1;
   pose proof (scan_sim s1 s1' H1 (cur s) None (0%nat, 0)) as SC; cbn [fst snd] in SC; rewrite Z.mul_0_r in SC; cbn [fst snd]; rewrite SC;
   destruct (scan rnd s1 (cur s) None (0%nat, 0)) as [[[c' t] [nc d]]|e]; [|split; [exact H1|reflexivity]];
   cbn [fst snd]; rewrite zero_scale;
   destruct (Nat.eqb c' 0 && (d =? 0)); [cbn [fst snd]; split; [repeat split; assumption|reflexivity]|];
   destruct t as [ti|]; [|cbn [fst snd]; split; [repeat split; assumption|reflexivity]];
   replace (Z.abs (a * d) <=? res s') with (Z.abs d <=? res s) by
     (rewrite R, Z.abs_mul, (Z.abs_eq a) by lia; destruct (Z.leb_spec (Z.abs d) (res s)); symmetry; [apply Z.leb_le|apply Z.leb_gt]; nia);
   rewrite C;
   replace (a * d <? 0) with (d <? 0) by (destruct (Z.ltb_spec d 0); symmetry; [apply Z.ltb_lt|apply Z.ltb_ge]; nia);
   destruct (Z.abs d <=? res s);
   [destruct (nth_error (clusters s) nc) as [[lo hi]|]; cbn [fst snd]; (split; [repeat split; cbn; congruence|reflexivity])
   |cbn [fst snd]; split; [repeat split; cbn; congruence|reflexivity]]).
Qed.
Lemma apply_sim s s' o : sim s s' -> sim (fst (apply rnd s o)) (fst (apply rnd' s' o)) /\ snd (apply rnd' s' o) = snd (apply rnd s o).
Proof using a_pos rnd_scale.
  intros H. destruct o as [| |gr]; cbn [apply].
  - now apply next_sim.
  - destruct H as (X & O & C & R & U & LC & LP & S). unfold reset_clusters. rewrite O, S.
    destruct (pyget (order s) (-1)); cbn [fst snd]; (split; [|reflexivity]); repeat split; cbn; congruence.
  - destruct H as (X & O & C & R & U & LC & LP & S). unfold combine_clusters.
    destruct (np_array2 gr); [|cbn [fst snd]; split; [|reflexivity]; repeat split; assumption].
    rewrite C. destruct (has_dup (concat gr)); [cbn [fst snd]; split; [|reflexivity]; repeat split; assumption|].
    destruct (combine_loop (clusters s) gr) as [cs [u|e]]; [|cbn [fst snd]; split; [|reflexivity]; repeat split; assumption].
    destruct (Nat.eqb (length (concat (map (@tl nat) gr))) 0); cbn [fst snd]; (split; [|reflexivity]); repeat split; assumption.
Qed.
End Sim.

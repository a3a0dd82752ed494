(** Properties C46 (getrangeslice), C47 (setvars, clear) and C48 (defaultvars). *)
From Coq Require Import Reals Lra String Sorted Permutation.
From Verif Require Import Prelude Evaluators EvaluatorsProps Vars.
Open Scope R_scope.

Lemma NoDup_app_intro {A} (l1 l2 : list A) : NoDup l1 -> NoDup l2 -> (forall a, In a l1 -> ~ In a l2) -> NoDup (l1 ++ l2).
Proof.
  induction 1 as [|a l1 N1 ND IH]; intros N2 H; [exact N2|]. cbn [app]. constructor.
  - intros I. apply in_app_or in I as [I|I]; [contradiction|]. apply (H a); [now left|exact I].
  - apply IH; [exact N2|]. intros b I. apply H. now right.
Qed.

(** ** C46 *)
Definition in_range (lo hi v : R) : bool := Rleb lo v && Rleb v hi.
Lemma Rltb_false a b : Rltb a b = false <-> b <= a.
Proof. unfold Rltb. destruct (Rlt_dec a b); split; intros; try discriminate; try lra; reflexivity. Qed.
Lemma Rltb_negb a b : Rleb b a = negb (Rltb a b).
Proof. unfold Rltb, Rleb. destruct (Rlt_dec a b), (Rle_dec b a); try reflexivity; lra. Qed.

Lemma sorted_lt_split b (x : list R) : StronglySorted Rle x ->
  x = filter (fun v => Rltb v b) x ++ filter (fun v => Rleb b v) x.
Proof.
  induction 1 as [|a x HS IH HA]; [reflexivity|]. cbn [filter]. rewrite (Rltb_negb a b). destruct (Rltb a b) eqn:E; cbn [negb app].
  - now rewrite <- IH.
  - apply Rltb_false in E.
    assert (N1 : filter (fun v => Rltb v b) x = []).
    { clear - HA E. induction x as [|c x IH]; [reflexivity|]. inversion HA; subst. cbn [filter].
      assert (X : Rltb c b = false) by (apply Rltb_false; lra). rewrite X. now apply IH. }
    assert (N2 : filter (fun v => Rleb b v) x = x).
    { clear - HA E. induction x as [|c x IH]; [reflexivity|]. inversion HA; subst. cbn [filter].
      assert (X : Rleb b c = true) by (apply Rleb_spec; lra). rewrite X. f_equal. now apply IH. }
    rewrite N1, N2. reflexivity.
Qed.
Lemma sorted_le_split b (x : list R) : StronglySorted Rle x ->
  x = filter (fun v => Rleb v b) x ++ filter (fun v => Rltb b v) x.
Proof.
  induction 1 as [|a x HS IH HA]; [reflexivity|]. cbn [filter]. rewrite (Rltb_negb b a). destruct (Rltb b a) eqn:E; cbn [negb app].
  - apply Rltb_spec in E.
    assert (N1 : filter (fun v => Rleb v b) x = []).
    { clear - HA E. induction x as [|c x IH]; [reflexivity|]. inversion HA; subst. cbn [filter].
      assert (X : Rleb c b = false) by (rewrite (Rltb_negb b c); assert (Y : Rltb b c = true) by (apply Rltb_spec; lra); now rewrite Y).
      rewrite X. now apply IH. }
    assert (N2 : filter (fun v => Rltb b v) x = x).
    { clear - HA E. induction x as [|c x IH]; [reflexivity|]. inversion HA; subst. cbn [filter].
      assert (X : Rltb b c = true) by (apply Rltb_spec; lra). rewrite X. f_equal. now apply IH. }
    rewrite N1, N2. reflexivity.
  - now rewrite <- IH.
Qed.

Lemma low_index_spec x b : StronglySorted Rle x ->
  low_index x b = if existsb (fun v => Rleb b v) x then Ok (length (filter (fun v => Rltb v b) x)) else Err IndexError.
Proof.
  induction 1 as [|a x HS IH HA]; [reflexivity|]. cbn [low_index existsb filter]. rewrite (Rltb_negb a b). destruct (Rltb a b) eqn:E; cbn [negb orb].
  - rewrite IH. destruct (existsb _ x); reflexivity.
  - apply Rltb_false in E. f_equal. symmetry.
    assert (N1 : filter (fun v => Rltb v b) x = []); [|now rewrite N1].
    clear - HA E. induction x as [|c x IH]; [reflexivity|]. inversion HA; subst. cbn [filter].
    assert (X : Rltb c b = false) by (apply Rltb_false; lra). rewrite X. now apply IH.
Qed.

Lemma pyget_nat {A} (l : list A) n v : nth_error l n = Some v -> pyget l (Z.of_nat n) = Ok v.
Proof.
  intros H. unfold pyget. assert (n < length l)%nat by (apply nth_error_Some; congruence).
  destruct (Z.ltb_spec (Z.of_nat n) 0); [lia|].
  destruct (Z.ltb_spec (Z.of_nat n) 0); [lia|]. destruct (Z.leb_spec (Z.of_nat (length l)) (Z.of_nat n)); [lia|]. cbn [orb]. rewrite Nat2Z.id, H. reflexivity.
Qed.
Lemma pyget_neg {A} (l : list A) n v : (n < length l)%nat -> nth_error l (length l - 1 - n) = Some v -> pyget l (- Z.of_nat (S n)) = Ok v.
Proof.
  intros L H. unfold pyget. destruct (Z.ltb_spec (- Z.of_nat (S n)) 0); [|lia].
  replace (- Z.of_nat (S n) + Z.of_nat (length l))%Z with (Z.of_nat (length l - 1 - n)) by lia.
  destruct (Z.ltb_spec (Z.of_nat (length l - 1 - n)) 0); [lia|].
  destruct (Z.leb_spec (Z.of_nat (length l)) (Z.of_nat (length l - 1 - n))); [lia|]. cbn [orb]. rewrite Nat2Z.id, H. reflexivity.
Qed.

Lemma hi_index_stop l b pre p1 : forall p2 fuel, l = pre ++ p1 ++ p2 -> pre <> [] -> last pre 0 <= b -> (forall v, In v p1 -> b < v) ->
  (length p1 < fuel)%nat -> hi_index fuel l b (Z.of_nat (length pre + length p1)) = Ok (Z.of_nat (length pre)).
Proof.
  induction p1 as [|v p1 IH] using rev_ind; intros p2 fuel EL PN HL HV HF; (destruct fuel as [|fuel]; [lia|]); cbn [hi_index].
  - destruct pre as [|p pre] using rev_ind; [contradiction|]. clear IHpre. rewrite last_last in HL.
    rewrite !app_length, Nat.add_0_r. cbn [length].
    replace (Z.of_nat (length pre + 1) - 1)%Z with (Z.of_nat (length pre)) by lia.
    rewrite (pyget_nat l (length pre) p).
    + cbn [bind]. assert (E : Rltb b p = false) by (apply Rltb_false; exact HL). rewrite E. reflexivity.
    + rewrite EL, <- app_assoc, nth_error_app2, Nat.sub_diag by lia. reflexivity.
  - rewrite app_length. cbn [length].
    replace (Z.of_nat (length pre + (length p1 + 1)) - 1)%Z with (Z.of_nat (length pre + length p1)) by lia.
    rewrite (pyget_nat l _ v).
    + cbn [bind]. assert (E : Rltb b v = true) by (apply Rltb_spec, HV, in_or_app; right; left; reflexivity). rewrite E.
      apply (IH (v :: p2)); auto.
      * rewrite EL, <- app_assoc. reflexivity.
      * intros u Hu. apply HV, in_or_app. now left.
      * rewrite app_length in HF. cbn in HF. lia.
    + rewrite EL, nth_error_app2 by lia. replace (length pre + length p1 - length pre)%nat with (length p1) by lia.
      rewrite <- app_assoc, nth_error_app2, Nat.sub_diag by lia. reflexivity.
Qed.
(** If every point exceeds b, the index runs down, wraps around and runs down again. *)
Lemma hi_index_none l b : (forall v, In v l -> b < v) -> forall fuel n, (n <= length l)%nat -> (n + length l < fuel)%nat ->
  hi_index fuel l b (Z.of_nat n) = Err IndexError.
Proof.
  intros HV.
  assert (NEG : forall fuel m, (length l - m < fuel)%nat -> (m <= length l)%nat -> hi_index fuel l b (- Z.of_nat m) = Err IndexError).
  { induction fuel as [|fuel IH]; intros m HF HM; [lia|]. cbn [hi_index].
    replace (- Z.of_nat m - 1)%Z with (- Z.of_nat (S m))%Z by lia.
    destruct (Nat.eq_dec m (length l)) as [->|NE].
    - unfold pyget. destruct (Z.ltb_spec (- Z.of_nat (S (length l))) 0); [|lia].
      destruct (Z.ltb_spec (- Z.of_nat (S (length l)) + Z.of_nat (length l)) 0); [reflexivity|lia].
    - destruct (nth_error l (length l - 1 - m)) as [v|] eqn:N; [|apply nth_error_None in N; lia].
      rewrite (pyget_neg l m v) by (auto; lia). cbn [bind].
      assert (E : Rltb b v = true) by (apply Rltb_spec, HV; eapply nth_error_In; exact N). rewrite E. apply IH; lia. }
  induction fuel as [|fuel IH]; intros n HN HF; [lia|].
  destruct n as [|n]; [apply (NEG (S fuel) 0%nat); lia|]. cbn [hi_index].
  replace (Z.of_nat (S n) - 1)%Z with (Z.of_nat n) by lia.
  destruct (nth_error l n) as [v|] eqn:N; [|apply nth_error_None in N; lia].
  rewrite (pyget_nat l n v N). cbn [bind].
  assert (E : Rltb b v = true) by (apply Rltb_spec, HV; eapply nth_error_In; exact N). rewrite E. apply IH; lia.
Qed.
Lemma hi_index_spec x b : x <> [] -> StronglySorted Rle x ->
  hi_index (2 * length x + 1) x b (Z.of_nat (length x)) =
  if existsb (fun v => Rleb v b) x then Ok (Z.of_nat (length (filter (fun v => Rleb v b) x))) else Err IndexError.
Proof.
  intros NE HS. destruct (existsb (fun v => Rleb v b) x) eqn:EX.
  - set (pre := filter (fun v => Rleb v b) x). set (post := filter (fun v => Rltb b v) x).
    assert (SP : x = pre ++ post) by (apply sorted_le_split; exact HS).
    assert (PN : pre <> []).
    { apply existsb_exists in EX as (v & Iv & Ev). intros Z. assert (In v pre) by (apply filter_In; auto). rewrite Z in H. destruct H. }
    rewrite SP at 1 3. rewrite !app_length.
    apply (hi_index_stop x b pre post [] (2 * (length pre + length post) + 1)); [rewrite app_nil_r; exact SP|exact PN| |  |lia].
    + assert (I : In (last pre 0) pre).
      { clear - PN. destruct pre as [|p pre] using rev_ind; [contradiction|]. rewrite last_last. apply in_or_app. right. left. reflexivity. }
      apply filter_In in I. apply Rleb_spec. tauto.
    + intros v Hv. apply filter_In in Hv. apply Rltb_spec. tauto.
  - apply hi_index_none; [|lia|lia]. intros v Hv.
    destruct (Rleb v b) eqn:E.
    + exfalso. assert (X : existsb (fun v => Rleb v b) x = true) by (apply existsb_exists; eauto). congruence.
    + rewrite (Rltb_negb b v) in E. apply Rltb_spec. now destruct (Rltb b v).
Qed.

Lemma last_indep {A} (x : list A) : forall b c d, last (b :: x) c = last (b :: x) d.
Proof. induction x as [|e x IH]; intros b c d; [reflexivity|]. exact (IH e c d). Qed.
Lemma sorted_first a x : StronglySorted Rle (a :: x) -> forall v, In v (a :: x) -> a <= v.
Proof. intros H v [<-|I]; [lra|]. inversion H as [|? ? _ HA]; subst. rewrite Forall_forall in HA. auto. Qed.
Lemma sorted_last a x : StronglySorted Rle (a :: x) -> forall v, In v (a :: x) -> v <= last (a :: x) a.
Proof.
  revert a. induction x as [|b x IH]; intros a H v I.
  - destruct I as [<-|[]]. cbn. lra.
  - change (last (a :: b :: x) a) with (last (b :: x) a).
    assert (E : last (b :: x) a = last (b :: x) b) by apply last_indep. rewrite E.
    inversion H as [|? ? HS HA]; subst. destruct I as [<-|I]; [|now apply IH].
    apply Rle_trans with b; [inversion HA; assumption|]. apply IH; [exact HS|now left].
Qed.
Lemma filter_ext_in' {A} (f g : A -> bool) l : (forall a, In a l -> f a = g a) -> filter f l = filter g l.
Proof. induction l as [|a l IH]; intros H; [reflexivity|]. cbn. rewrite (H a) by now left. rewrite IH by (intros; apply H; now right). reflexivity. Qed.
Lemma last_in {A} (a : A) x : In (last (a :: x) a) (a :: x).
Proof. revert a. induction x as [|b x IH]; intros a; [now left|]. right. change (last (a :: b :: x) a) with (last (b :: x) a).
  assert (E : last (b :: x) a = last (b :: x) b) by apply last_indep. rewrite E. apply IH. Qed.
Lemma pyget_last {A} (a : A) x : pyget (a :: x) (-1) = Ok (last (a :: x) a).
Proof.
  apply (pyget_neg (a :: x) 0 (last (a :: x) a)); [cbn; lia|]. cbn [length]. rewrite Nat.sub_0_r.
  replace (S (length x) - 1)%nat with (length x) by lia. revert a. induction x as [|b x IH]; intros a; [reflexivity|].
  change (nth_error (b :: x) (length x) = Some (last (b :: x) a)).
  assert (E : last (b :: x) a = last (b :: x) b) by apply last_indep. rewrite E. apply IH.
Qed.

(** Both outcomes for every nonempty sorted grid. *)
Lemma getrangeslice_spec a x lo hi : StronglySorted Rle (a :: x) ->
  getrangeslice (a :: x) lo hi =
  if Rleb lo (last (a :: x) a) && Rleb a hi
  then Ok (length (filter (fun v => Rltb v lo) (a :: x)), Z.of_nat (length (filter (fun v => Rleb v hi) (a :: x))))
  else Err IndexError.
Proof.
  intros HS. pose proof (sorted_first a x HS) as HF. pose proof (sorted_last a x HS) as HLa. pose proof (last_in a x) as IL.
  unfold getrangeslice. rewrite (pyget_nat (a :: x) 0 a eq_refl : pyget (a :: x) 0 = _), pyget_last. cbn [bind].
  set (l := a :: x) in *. set (z := last l a) in *.
  rewrite low_index_spec by exact HS.
  assert (E1 : existsb (fun v => Rleb (Rmax a lo) v) l = Rleb lo z).
  { apply eq_true_iff_eq. rewrite existsb_exists, Rleb_spec. split.
    - intros (v & Iv & Ev). apply Rleb_spec in Ev. apply HLa in Iv. pose proof (Rmax_r a lo). lra.
    - intros H. exists z. split; [exact IL|]. apply Rleb_spec. apply Rmax_lub; [apply HF; exact IL|exact H]. }
  rewrite E1. destruct (Rleb lo z); cbn [bind andb]; [|reflexivity].
  rewrite hi_index_spec by (discriminate || exact HS).
  assert (E2 : existsb (fun v => Rleb v (Rmin z hi)) l = Rleb a hi).
  { apply eq_true_iff_eq. rewrite existsb_exists, Rleb_spec. split.
    - intros (v & Iv & Ev). apply Rleb_spec in Ev. apply HF in Iv. pose proof (Rmin_r z hi). lra.
    - intros H. exists a. split; [now left|]. apply Rleb_spec. apply Rmin_glb; [apply HF; exact IL|exact H]. }
  rewrite E2. destruct (Rleb a hi); cbn [bind]; [|reflexivity]. f_equal. f_equal.
  - f_equal. apply filter_ext_in'. intros v Iv. apply eq_true_iff_eq. rewrite !Rltb_spec. apply HF in Iv.
    unfold Rmax. destruct (Rle_dec a lo); lra.
  - do 2 f_equal. apply filter_ext_in'. intros v Iv. apply eq_true_iff_eq. rewrite !Rleb_spec. apply HLa in Iv.
    unfold Rmin. destruct (Rle_dec z hi); lra.
Qed.

Lemma filter_filter {A} (f g : A -> bool) l : filter f (filter g l) = filter (fun v => g v && f v) l.
Proof. induction l as [|a l IH]; [reflexivity|]. cbn [filter]. destruct (g a); cbn [filter andb]; [destruct (f a); now rewrite IH|exact IH]. Qed.
Lemma sorted_filter f (x : list R) : StronglySorted Rle x -> StronglySorted Rle (filter f x).
Proof.
  induction 1 as [|a x HS IH HA]; [constructor|]. cbn [filter]. destruct (f a); [|exact IH]. constructor; [exact IH|].
  rewrite Forall_forall in *. intros v Hv. apply filter_In in Hv. apply HA. tauto.
Qed.

(** The selected points are exactly those with rng[0] <= x <= rng[1], in order. *)
Theorem C46_exactly_the_points_in_range :
  forall (x0 : R) (rest : list R) (lo hi : R), let x := x0 :: rest in
    StronglySorted Rle x ->
    lo <= last x x0 -> x0 <= hi ->
    exists a b : nat, getrangeslice x lo hi = Ok (a, Z.of_nat b) /\
      take_slice x (a, Z.of_nat b) = filter (in_range lo hi) x /\
      (forall i v, nth_error x i = Some v -> ((a <= i < b)%nat <-> lo <= v <= hi)).
Proof.
  intros x0 rest lo hi x HS H1 H2. unfold x. rewrite getrangeslice_spec by exact HS. fold x.
  rewrite (proj2 (Rleb_spec _ _) H1), (proj2 (Rleb_spec _ _) H2). cbn [andb].
  eexists _, _. split; [reflexivity|].
  set (A := filter (fun v => Rltb v lo) x). set (Bl := filter (fun v => Rleb lo v) x).
  assert (SP : x = A ++ Bl) by (apply sorted_lt_split; exact HS).
  set (C := filter (fun v => Rleb v hi) x). set (D := filter (fun v => Rltb hi v) x).
  assert (SQ : x = C ++ D) by (apply sorted_le_split; exact HS).
  split.
  - unfold take_slice. cbn [fst snd]. rewrite Nat2Z.id. rewrite SP at 1. rewrite skipn_app, skipn_all, Nat.sub_diag. cbn [app skipn].
    assert (SB : Bl = filter (fun v => Rleb v hi) Bl ++ filter (fun v => Rltb hi v) Bl) by (apply sorted_le_split, sorted_filter, HS).
    assert (LB : length C = (length (filter (fun v => Rleb v hi) A) + length (filter (fun v => Rleb v hi) Bl))%nat).
    { unfold C. rewrite SP at 1. rewrite filter_app, app_length. reflexivity. }
    assert (FI : filter (in_range lo hi) x = filter (fun v => Rleb v hi) Bl) by (unfold Bl; rewrite filter_filter; reflexivity).
    rewrite FI. destruct (Rle_dec lo hi) as [LE|GT].
    + assert (FA : filter (fun v => Rleb v hi) A = A).
      { unfold A. rewrite filter_filter. apply filter_ext_in'. intros v _. apply eq_true_iff_eq. rewrite andb_true_iff, Rltb_spec, Rleb_spec. lra. }
      rewrite FA in LB. replace (length C - length A)%nat with (length (filter (fun v => Rleb v hi) Bl)) by lia.
      rewrite SB at 2. rewrite firstn_app, firstn_all, Nat.sub_diag. cbn [firstn]. apply app_nil_r.
    + assert (FB : filter (fun v => Rleb v hi) Bl = []).
      { unfold Bl. rewrite filter_filter. rewrite (filter_ext_in' _ (fun _ => false)).
        - clear. induction x as [|c x IH]; [reflexivity|exact IH].
        - intros v _. apply Bool.not_true_iff_false. rewrite andb_true_iff, !Rleb_spec. lra. }
      rewrite FB. assert (LA : (length C <= length A)%nat).
      { rewrite LB, FB. cbn [length]. rewrite Nat.add_0_r. clear. induction A as [|c A IH]; [cbn; lia|]. cbn [filter]. destruct (Rleb c hi); cbn; lia. }
      replace (length C - length A)%nat with 0%nat by lia. reflexivity.
  - intros i v N. assert (I1 : (length A <= i)%nat <-> lo <= v).
    { split.
      - intros H. rewrite SP, nth_error_app2 in N by exact H. apply nth_error_In in N. apply filter_In in N. apply Rleb_spec. tauto.
      - intros H. destruct (Nat.le_gt_cases (length A) i) as [|G]; [assumption|]. exfalso.
        rewrite SP, nth_error_app1 in N by exact G. apply nth_error_In in N. apply filter_In in N as [_ N]. apply Rltb_spec in N. lra. }
    assert (I2 : (i < length C)%nat <-> v <= hi).
    { split.
      - intros H. rewrite SQ, nth_error_app1 in N by exact H. apply nth_error_In in N. apply filter_In in N. apply Rleb_spec. tauto.
      - intros H. destruct (Nat.le_gt_cases (length C) i) as [G|]; [|assumption]. exfalso.
        rewrite SQ, nth_error_app2 in N by exact G. apply nth_error_In in N. apply filter_In in N as [_ N]. apply Rltb_spec in N. lra. }
    split; intros [? ?]; split; tauto.
Qed.
Print Assumptions C46_exactly_the_points_in_range.

(** A range that misses the data raises IndexError instead of selecting nothing. *)
Theorem C88_range_outside_data_refuted :
  forall (x0 : R) (rest : list R) (lo hi : R), let x := x0 :: rest in
    StronglySorted Rle x -> last x x0 < lo \/ hi < x0 -> getrangeslice x lo hi = Err IndexError.
Proof.
  intros x0 rest lo hi x HS H. unfold x. rewrite getrangeslice_spec by exact HS. fold x.
  assert (E : Rleb lo (last x x0) && Rleb x0 hi = false); [|now rewrite E].
  apply Bool.not_true_iff_false. rewrite andb_true_iff, !Rleb_spec. lra.
Qed.
Print Assumptions C88_range_outside_data_refuted.

Example C46_nonvacuous : getrangeslice [1; 2; 3; 5] (3/2) 4 = Ok (1%nat, 3%Z) /\ StronglySorted Rle [1; 2; 3; 5] /\
  3/2 <= last [1; 2; 3; 5] 1 /\ 1 <= 4.
Proof.
  assert (HS : StronglySorted Rle [1; 2; 3; 5]) by (repeat constructor; lra). split.
  - rewrite getrangeslice_spec by exact HS. cbn [last]. rewrite (proj2 (Rleb_spec (3/2) 5)), (proj2 (Rleb_spec 1 4)) by lra. cbn [andb].
    cbn [filter]. rewrite (proj2 (Rltb_spec 1 (3/2))), (proj2 (Rltb_false 2 (3/2))), (proj2 (Rltb_false 3 (3/2))), (proj2 (Rltb_false 5 (3/2))) by lra.
    rewrite !(Rltb_negb 4). rewrite (proj2 (Rltb_false 4 1)), (proj2 (Rltb_false 4 2)), (proj2 (Rltb_false 4 3)), (proj2 (Rltb_spec 4 5)) by lra. reflexivity.
  - split; [exact HS|]. cbn. lra.
Qed.

(** ** C47, C48 *)
Section VarsProps.
Context {F BF BL EM PK X : Type}.
Variable L : lib F BF BL EM PK.
Notation value := (value F BF BL EM PK X).
Notation obj := (obj F BF BL EM PK X).
Open Scope string_scope.

Definition same_data (o o' : obj) : Prop := o_x o' = o_x o /\ o_y o' = o_y o /\ o_dx o' = o_dx o /\ o_dy o' = o_dy o.
Lemma same_data_refl o : same_data o o. Proof. repeat split. Qed.
Lemma same_data_trans o1 o2 o3 : same_data o1 o2 -> same_data o2 o3 -> same_data o1 o3.
Proof. unfold same_data. intuition congruence. Qed.
Lemma attr_same (o : obj) k v : o_attr (setattr o k v) k = v.
Proof. cbn. now rewrite String.eqb_refl. Qed.
Lemma attr_other (o : obj) k v k' : k' <> k -> o_attr (setattr o k v) k' = o_attr o k'.
Proof. intros H. cbn. destruct (String.eqb_spec k' k); [contradiction|reflexivity]. Qed.

(** Values that count as not, or only partly, set. *)
Definition incomplete (k : string) (v : value) : Prop :=
  v = VNone \/
  (k = "effective_dy" /\ exists d, v = VNum d /\ 0 < d) \/
  (k = "rng" /\ exists lo hi, v = VRng lo hi /\ (lo = None \/ hi = None)) \/
  (k = "baseline" /\ exists f, v = VBaseFn f).

(** [s] only touches attribute [k], and only if it is incomplete or named in [args]. *)
Definition touches (args : list string) (k : string) (s : obj -> obj * result unit) : Prop :=
  forall o o' r, s o = (o', r) -> same_data o o' /\ (forall k', k' <> k -> o_attr o' k' = o_attr o k') /\
    (~ In k args -> ~ incomplete k (o_attr o k) -> o' = o /\ (r = Ok tt \/ r = Err TypeError)).

Lemma wanted_false args (o : obj) k : wanted args o k = false -> o_attr o k <> VNone /\ ~ In k args.
Proof.
  unfold wanted. intros H. apply orb_false_elim in H as [H1 H2]. split; [intros E; rewrite E in H1; discriminate|].
  intros I. assert (existsb (String.eqb k) args = true) by (apply existsb_exists; exists k; split; [exact I|apply String.eqb_refl]). congruence.
Qed.
Lemma wanted_true args (o : obj) k : wanted args o k = true -> o_attr o k = VNone \/ In k args.
Proof.
  unfold wanted. intros H. apply orb_prop in H as [H|H]; [left; destruct (o_attr o k); try discriminate; reflexivity|right].
  apply existsb_exists in H as (k' & I & E). apply String.eqb_eq in E. now subst.
Qed.
Lemma wanted_no args (o : obj) k : ~ In k args -> ~ incomplete k (o_attr o k) -> wanted args o k = false.
Proof.
  intros H1 H2. destruct (wanted args o k) eqn:E; [|reflexivity]. exfalso. destruct (wanted_true _ _ _ E) as [V|I]; [apply H2; now left|contradiction].
Qed.

Ltac fin := first [exact (same_data_refl _) | repeat split; fail].
Ltac touched := intros o o' r E; first
  [ injection E as <- <- ].

Lemma touch_set args k (o : obj) v r o' (H : (setattr o k v, Ok tt) = (o', r)) : (In k args \/ incomplete k (o_attr o k)) ->
  same_data o o' /\ (forall k', k' <> k -> o_attr o' k' = o_attr o k') /\
  (~ In k args -> ~ incomplete k (o_attr o k) -> o' = o /\ (r = Ok tt \/ r = Err TypeError)).
Proof.
  intros G. injection H as <- <-. split; [repeat split|]. split; [intros; now apply attr_other|]. intros N1 N2. destruct G; contradiction.
Qed.
Lemma touch_keep args k (o : obj) r o' q (H : (o, q) = (o', r)) : (In k args \/ incomplete k (o_attr o k)) \/ q = Ok tt \/ q = Err TypeError ->
  same_data o o' /\ (forall k', k' <> k -> o_attr o' k' = o_attr o k') /\
  (~ In k args -> ~ incomplete k (o_attr o k) -> o' = o /\ (r = Ok tt \/ r = Err TypeError)).
Proof.
  intros G. injection H as <- <-. split; [repeat split|]. split; [reflexivity|]. intros N1 N2. split; [reflexivity|]. destruct G as [[|]|G]; [contradiction|contradiction|exact G].
Qed.
Lemma wanted_inc args (o : obj) k : wanted args o k = true -> In k args \/ incomplete k (o_attr o k).
Proof. intros H. destruct (wanted_true _ _ _ H); [right; now left|now left]. Qed.

Lemma touches_cres args : touches args "cres" (step_cres args).
Proof.
  intros o o' r E. unfold step_cres, with_x, first_last in E. destruct (wanted args o "cres") eqn:W; [|eapply touch_keep; [exact E|auto]].
  apply wanted_inc in W. destruct (o_x o) as [[|a x]|]; [eapply touch_keep; [exact E|auto]|eapply touch_set; [exact E|auto]|eapply touch_keep; [exact E|auto]].
Qed.
Lemma touches_edy args : touches args "effective_dy" (step_edy args).
Proof.
  intros o o' r E. unfold step_edy, with_x in E. destruct (wanted args o "effective_dy") eqn:W.
  - apply wanted_inc in W. destruct (forallb _ _); [eapply touch_set; [exact E|auto]|].
    destruct (o_x o); [|eapply touch_keep; [exact E|auto]]. destruct (o_y o); [eapply touch_keep; [exact E|auto]|eapply touch_set; [exact E|auto]].
  - remember (o_attr o "effective_dy") as val eqn:V in E; symmetry in V; destruct val as [|d| | | | | | | | | |]; try (eapply touch_keep; [exact E|auto]).
    destruct (Rltb 0 d) eqn:D; [|eapply touch_keep; [exact E|auto]]. apply Rltb_spec in D.
    assert (I : incomplete "effective_dy" (o_attr o "effective_dy")) by (right; left; split; [reflexivity|exists d; auto]).
    destruct (o_x o); [eapply touch_set; [exact E|auto]|eapply touch_keep; [exact E|auto]].
Qed.
Lemma touches_pf args : touches args "pf" (step_pf L args).
Proof.
  intros o o' r E. unfold step_pf, with_x, first_last in E. destruct (wanted args o "pf") eqn:W; [|eapply touch_keep; [exact E|auto]].
  apply wanted_inc in W. destruct (o_x o) as [[|a x]|]; [eapply touch_keep; [exact E|auto]|eapply touch_set; [exact E|auto]|eapply touch_keep; [exact E|auto]].
Qed.
Lemma touches_rng args : touches args "rng" (step_rng args).
Proof.
  intros o o' r E. unfold step_rng, with_x, first_last in E. destruct (wanted args o "rng") eqn:W.
  - apply wanted_inc in W. destruct (o_x o) as [[|a x]|]; [eapply touch_keep; [exact E|auto]|eapply touch_set; [exact E|auto]|eapply touch_keep; [exact E|auto]].
  - remember (o_attr o "rng") as val eqn:V in E; symmetry in V; destruct val as [| | | |lo hi| | | | | | |]; try (eapply touch_keep; [exact E|auto]).
    assert (I : lo = None \/ hi = None -> incomplete "rng" (o_attr o "rng")) by (intros I; right; right; left; split; [reflexivity|exists lo, hi; auto]).
    destruct lo as [lo|], hi as [hi|]; [eapply touch_keep; [exact E|auto]| | |];
      (assert (J : incomplete "rng" (o_attr o "rng")) by (apply I; auto));
      (destruct (o_x o) as [[|a x]|]; [eapply touch_keep; [exact E|auto]|eapply touch_set; [exact E|auto]|eapply touch_keep; [exact E|auto]]).
Qed.
Lemma touches_estimate args : touches args "baseline" (step_estimate L).
Proof.
  intros o o' r E. unfold step_estimate, with_x in E.
  remember (o_attr o "baseline") as val eqn:V in E; symmetry in V; destruct val as [| | | | | | |f| | | |]; try (eapply touch_keep; [exact E|auto]).
  assert (J : incomplete "baseline" (o_attr o "baseline")) by (right; right; right; split; [reflexivity|exists f; exact V]).
  destruct (o_attr o "rng") as [| | | |[lo|] [hi|]| | | | | | |]; try (eapply touch_keep; [exact E|auto]).
  destruct (o_x o) as [x|]; [|eapply touch_keep; [exact E|auto]].
  destruct (getrangeslice x lo hi) as [s|]; [|eapply touch_keep; [exact E|auto]].
  destruct (estimate_bl L f _ _) as [b|e]; [eapply touch_set; [exact E|auto]|].
  destruct e; first [eapply touch_set; [exact E|auto; fail]|eapply touch_keep; [exact E|auto; fail]].
Qed.
Lemma touches_const k v args : touches args k (step_const (X:=X) (F:=F) (BF:=BF) (BL:=BL) (EM:=EM) (PK:=PK) k v args).
Proof.
  intros o o' r E. unfold step_const in E. destruct (wanted args o k) eqn:W; [|eapply touch_keep; [exact E|auto]].
  apply wanted_inc in W. eapply touch_set; [exact E|auto].
Qed.

(** A sequence of steps. *)
Lemma seq_steps_cons s ss (o : obj) : seq_steps (s :: ss) o = match s o with (o', Ok _) => seq_steps ss o' | (o', Err e) => (o', Err e) end.
Proof.
  unfold seq_steps at 1. cbn [fold_left]. destruct (s o) as [o' [[]|e]]; [reflexivity|].
  induction ss as [|s' ss IH]; [reflexivity|]. cbn [fold_left]. exact IH.
Qed.
Lemma seq_keeps args : forall ks ss, Forall2 (touches args) ks ss -> forall o o' r, seq_steps ss o = (o', r) ->
  same_data o o' /\ (forall k, ~ In k ks -> o_attr o' k = o_attr o k) /\
  (forall k, ~ In k args -> ~ incomplete k (o_attr o k) -> o_attr o' k = o_attr o k).
Proof.
  induction 1 as [|k s ks ss T _ IH]; intros o o' r E.
  - injection E as <- _. repeat split.
  - rewrite seq_steps_cons in E. destruct (s o) as [o1 r1] eqn:S1. destruct (T _ _ _ S1) as (D & O & K).
    assert (K' : forall k0, ~ In k0 args -> ~ incomplete k0 (o_attr o k0) -> o_attr o1 k0 = o_attr o k0).
    { intros k0 N1 N2. destruct (string_dec k0 k) as [->|NE]; [|now apply O]. destruct (K N1 N2) as [-> _]. reflexivity. }
    destruct r1 as [[]|e].
    + destruct (IH _ _ _ E) as (D2 & O2 & K2). split; [eapply same_data_trans; eauto|]. split.
      * intros k0 N0. rewrite O2 by (intros I; apply N0; now right). apply O. intros ->. apply N0. now left.
      * intros k0 N1 N2. rewrite K2; [now apply K'|exact N1|]. rewrite K' by assumption. exact N2.
    + injection E as <- _. split; [exact D|]. split; [|exact K'].
      intros k0 N0. apply O. intros ->. apply N0. now left.
Qed.

Definition default_order : list string := ["cres"; "effective_dy"; "pf"; "rng"; "baseline"; "baseline"; "error_method"; "initial_peaks"].
Lemma defaultvars_touches args : Forall2 (touches args) default_order
  [step_cres args; step_edy args; step_pf L args; step_rng args; step_estimate L;
   step_const "baseline" (VBase (zero_bl L)) args; step_const "error_method" (VErr (aic L)) args; step_const "initial_peaks" (VPeaks (no_peaks L)) args].
Proof.
  constructor; [apply touches_cres|]. constructor; [apply touches_edy|]. constructor; [apply touches_pf|]. constructor; [apply touches_rng|].
  constructor; [apply touches_estimate|]. constructor; [apply touches_const|]. constructor; [apply touches_const|]. constructor; [apply touches_const|]. constructor.
Qed.
Lemma order_base k : In k default_order <-> In k base_vars.
Proof. unfold default_order, base_vars. cbn. intuition. Qed.

(** *** C48: explicit settings survive, also when an exception is raised. *)
Theorem C48_explicit_settings_survive :
  forall (args : list string) (o o' : obj) r, defaultvars L args o = (o', r) ->
    same_data o o' /\
    (forall k, ~ In k base_vars -> o_attr o' k = o_attr o k) /\
    (forall k, ~ In k args -> ~ incomplete k (o_attr o k) -> o_attr o' k = o_attr o k).
Proof.
  intros args o o' r E. destruct (seq_keeps args _ _ (defaultvars_touches args) o o' r E) as (A & B & C).
  split; [exact A|]. split; [|exact C]. intros k N. apply B. intros I. apply N. now apply order_base.
Qed.

(** The steps of a successful run. *)
Lemma defaultvars_steps args (o o8 : obj) : defaultvars L args o = (o8, Ok tt) ->
  exists o1 o2 o3 o4 o5 o6 o7 : obj, step_cres args o = (o1, Ok tt) /\ step_edy args o1 = (o2, Ok tt) /\ step_pf L args o2 = (o3, Ok tt) /\
    step_rng args o3 = (o4, Ok tt) /\ step_estimate L o4 = (o5, Ok tt) /\ step_const "baseline" (VBase (zero_bl L)) args o5 = (o6, Ok tt) /\
    step_const "error_method" (VErr (aic L)) args o6 = (o7, Ok tt) /\ step_const "initial_peaks" (VPeaks (no_peaks L)) args o7 = (o8, Ok tt).
Proof.
  unfold defaultvars. intros E.
  rewrite seq_steps_cons in E. destruct (step_cres args o) as [o1 [[]|e]] eqn:E1; [|discriminate].
  rewrite seq_steps_cons in E. destruct (step_edy args o1) as [o2 [[]|e]] eqn:E2; [|discriminate].
  rewrite seq_steps_cons in E. destruct (step_pf L args o2) as [o3 [[]|e]] eqn:E3; [|discriminate].
  rewrite seq_steps_cons in E. destruct (step_rng args o3) as [o4 [[]|e]] eqn:E4; [|discriminate].
  rewrite seq_steps_cons in E. destruct (step_estimate L o4) as [o5 [[]|e]] eqn:E5; [|discriminate].
  rewrite seq_steps_cons in E. destruct (step_const "baseline" _ args o5) as [o6 [[]|e]] eqn:E6; [|discriminate].
  rewrite seq_steps_cons in E. destruct (step_const "error_method" _ args o6) as [o7 [[]|e]] eqn:E7; [|discriminate].
  rewrite seq_steps_cons in E. destruct (step_const "initial_peaks" _ args o7) as [o9 [[]|e]] eqn:E8; [|discriminate].
  injection E as <-. exists o1, o2, o3, o4, o5, o6, o7. repeat split; auto.
Qed.

(** The documented defaults, as a function of the data. *)
Definition data_span (x : list R) : R := match x with [] => 0 | a :: _ => last x a - a end.
Definition crude_dy (o : obj) (x : list R) : list R :=
  if forallb (fun d => Rltb 0 d) (o_dy o) then o_dy o else repeat (5 / 100 * (list_max (o_y o) - list_min (o_y o))) (length x).

(** *** C48: after a successful call everything is set, with the documented values. *)
Theorem C48_documented_defaults :
  forall (args : list string) (o o' : obj) (x0 : R) (rest : list R), let x := (x0 :: rest)%list in
    o_x o = Some x -> defaultvars L args o = (o', Ok tt) ->
    (forall k, In k base_vars -> ~ incomplete k (o_attr o' k)) /\
    (o_attr o "cres" = VNone \/ In "cres" args -> o_attr o' "cres" = VNum (4 * data_span x / INR (length x))) /\
    (o_attr o "effective_dy" = VNone \/ In "effective_dy" args -> o_attr o' "effective_dy" = VArr (crude_dy o x)) /\
    (forall d, ~ In "effective_dy" args -> o_attr o "effective_dy" = VNum d -> 0 < d -> o_attr o' "effective_dy" = VArr (repeat d (length x))) /\
    (o_attr o "pf" = VNone \/ In "pf" args -> o_attr o' "pf" = VPf [gor L (data_span x)]) /\
    (o_attr o "rng" = VNone \/ In "rng" args -> o_attr o' "rng" = VRng (Some x0) (Some (last x x0))) /\
    (forall lo hi, ~ In "rng" args -> o_attr o "rng" = VRng lo hi ->
       o_attr o' "rng" = VRng (Some (match lo with None => x0 | Some v => v end)) (Some (match hi with None => last x x0 | Some v => v end))) /\
    (o_attr o "baseline" = VNone \/ In "baseline" args -> o_attr o' "baseline" = VBase (zero_bl L)) /\
    (o_attr o "error_method" = VNone \/ In "error_method" args -> o_attr o' "error_method" = VErr (aic L)) /\
    (o_attr o "initial_peaks" = VNone \/ In "initial_peaks" args -> o_attr o' "initial_peaks" = VPeaks (no_peaks L)).
Proof.
  intros args o o' x0 rest x OX E. apply defaultvars_steps in E as (o1 & o2 & o3 & o4 & o5 & o6 & o7 & S1 & S2 & S3 & S4 & S5 & S6 & S7 & S8).
  destruct (touches_cres _ _ _ _ S1) as (D1 & T1 & _). destruct (touches_edy _ _ _ _ S2) as (D2 & T2 & _).
  destruct (touches_pf _ _ _ _ S3) as (D3 & T3 & _). destruct (touches_rng _ _ _ _ S4) as (D4 & T4 & _).
  destruct (touches_estimate args _ _ _ S5) as (D5 & T5 & _). destruct (touches_const _ _ _ _ _ _ S6) as (D6 & T6 & _).
  destruct (touches_const _ _ _ _ _ _ S7) as (D7 & T7 & _). destruct (touches_const _ _ _ _ _ _ S8) as (D8 & T8 & _).
  assert (X1 : o_x o1 = Some x) by (destruct D1; congruence). assert (X2 : o_x o2 = Some x) by (destruct D2; congruence).
  assert (X3 : o_x o3 = Some x) by (destruct D3; congruence).
  assert (WI : forall (q : obj) k, o_attr q k = VNone \/ In k args -> wanted args q k = true).
  { intros q k [H|H]; unfold wanted; [now rewrite H|]. apply orb_true_iff. right. apply existsb_exists. exists k. split; [exact H|apply String.eqb_refl]. }
  assert (WN : forall (q : obj) k, wanted args q k = true \/ (o_attr q k <> VNone /\ ~ In k args)).
  { intros q k. destruct (wanted args q k) eqn:W; [now left|right]. now apply wanted_false. }
  (* where each attribute of the result comes from *)
  assert (AC : o_attr o' "cres" = o_attr o1 "cres") by (rewrite T8, T7, T6, T5, T4, T3, T2 by discriminate; reflexivity).
  assert (AE : o_attr o' "effective_dy" = o_attr o2 "effective_dy") by (rewrite T8, T7, T6, T5, T4, T3 by discriminate; reflexivity).
  assert (AP : o_attr o' "pf" = o_attr o3 "pf") by (rewrite T8, T7, T6, T5, T4 by discriminate; reflexivity).
  assert (AR : o_attr o' "rng" = o_attr o4 "rng") by (rewrite T8, T7, T6, T5 by discriminate; reflexivity).
  assert (AB : o_attr o' "baseline" = o_attr o6 "baseline") by (rewrite T8, T7 by discriminate; reflexivity).
  assert (AM : o_attr o' "error_method" = o_attr o7 "error_method") by (rewrite T8 by discriminate; reflexivity).
  assert (BE : o_attr o1 "effective_dy" = o_attr o "effective_dy") by (apply T1; discriminate).
  assert (BP : o_attr o2 "pf" = o_attr o "pf") by (rewrite T2, T1 by discriminate; reflexivity).
  assert (BR : o_attr o3 "rng" = o_attr o "rng") by (rewrite T3, T2, T1 by discriminate; reflexivity).
  assert (BB : o_attr o4 "baseline" = o_attr o "baseline") by (rewrite T4, T3, T2, T1 by discriminate; reflexivity).
  assert (BM : o_attr o6 "error_method" = o_attr o "error_method") by (rewrite T6, T5, T4, T3, T2, T1 by discriminate; reflexivity).
  assert (BI : o_attr o7 "initial_peaks" = o_attr o "initial_peaks") by (rewrite T7, T6, T5, T4, T3, T2, T1 by discriminate; reflexivity).
  (* the individual steps *)
  assert (C1 : (o_attr o "cres" = VNone \/ In "cres" args -> o_attr o1 "cres" = VNum (4 * data_span x / INR (length x))) /\ o_attr o1 "cres" <> VNone).
  { unfold step_cres, with_x, first_last in S1. rewrite OX in S1. destruct (WN o "cres") as [W|[W1 W2]].
    - rewrite W in S1. unfold x in S1. injection S1 as <-. rewrite attr_same. split; [reflexivity|discriminate].
    - destruct (wanted args o "cres") eqn:W; [unfold x in S1; injection S1 as <-; rewrite attr_same; split; [reflexivity|discriminate]|].
      injection S1 as <-. split; [|exact W1]. intros H. apply WI in H. congruence. }
  assert (C2 : (o_attr o "effective_dy" = VNone \/ In "effective_dy" args -> o_attr o2 "effective_dy" = VArr (crude_dy o x)) /\
     (forall d, ~ In "effective_dy" args -> o_attr o "effective_dy" = VNum d -> 0 < d -> o_attr o2 "effective_dy" = VArr (repeat d (length x))) /\
     ~ incomplete "effective_dy" (o_attr o2 "effective_dy")).
  { assert (NI : forall l, ~ incomplete "effective_dy" (VArr l)).
    { intros l [H|[(_ & d & H & _)|[(H & _)|(H & _)]]]; discriminate. }
    unfold step_edy, with_x in S2. destruct D1 as (_ & Dy & _ & Ddy). rewrite X1 in S2. unfold crude_dy. rewrite <- Dy, <- Ddy.
    destruct (wanted args o1 "effective_dy") eqn:W.
    - assert (W' : o_attr o "effective_dy" = VNone \/ In "effective_dy" args) by (rewrite <- BE; apply wanted_true; exact W).
      assert (N : forall d, ~ In "effective_dy" args -> o_attr o "effective_dy" = VNum d -> False) by (intros d N1 N2; destruct W' as [W'|W']; [congruence|contradiction]).
      destruct (forallb _ _).
      + injection S2 as <-. rewrite attr_same. split; [reflexivity|]. split; [|apply NI]. intros d N1 N2. exfalso. eauto.
      + destruct (o_y o1) as [|y0 y] eqn:Y1; [discriminate|]. injection S2 as <-. rewrite attr_same. split; [reflexivity|]. split; [|apply NI].
        intros d N1 N2. exfalso. eauto.
    - destruct (wanted_false _ _ _ W) as [W1 W2]. rewrite <- BE. split; [intros H; apply WI in H; congruence|].
      destruct (o_attr o1 "effective_dy") as [|d| | | | | | | | | |] eqn:V; try contradiction;
        try (injection S2 as <-; split; [intros; discriminate|]; rewrite V; intros [H|[(_ & z & H & _)|[(H & _)|(H & _)]]]; discriminate).
      destruct (Rltb 0 d) eqn:DD; injection S2 as <-.
      + rewrite attr_same. split; [intros d' _ [= <-] _; reflexivity|apply NI].
      + apply Rltb_false in DD. split; [intros d' _ [= <-] HD; exfalso; lra|]. rewrite V.
        intros [H|[(_ & z & H & HZ)|[(H & _)|(H & _)]]]; try discriminate. injection H as <-. lra. }
  assert (C3 : (o_attr o "pf" = VNone \/ In "pf" args -> o_attr o3 "pf" = VPf [gor L (data_span x)]) /\ o_attr o3 "pf" <> VNone).
  { unfold step_pf, with_x, first_last in S3. rewrite X2 in S3. rewrite <- BP. destruct (wanted args o2 "pf") eqn:W.
    - unfold x in S3. injection S3 as <-. rewrite attr_same. split; [reflexivity|discriminate].
    - injection S3 as <-. split; [intros H; apply WI in H; congruence|]. now apply wanted_false in W. }
  assert (C4 : (o_attr o "rng" = VNone \/ In "rng" args -> o_attr o4 "rng" = VRng (Some x0) (Some (last x x0))) /\
    (forall lo hi, ~ In "rng" args -> o_attr o "rng" = VRng lo hi ->
       o_attr o4 "rng" = VRng (Some (match lo with None => x0 | Some v => v end)) (Some (match hi with None => last x x0 | Some v => v end))) /\
    exists lo hi, o_attr o4 "rng" = VRng (Some lo) (Some hi)).
  { unfold step_rng, with_x, first_last in S4. rewrite X3 in S4. rewrite <- BR. destruct (wanted args o3 "rng") eqn:W.
    - unfold x in S4. injection S4 as <-. rewrite attr_same. split; [reflexivity|]. split; [|eauto].
      intros lo hi N1 N2. exfalso. apply wanted_true in W. destruct W as [W|W]; [congruence|contradiction].
    - split; [intros H; apply WI in H; congruence|].
      destruct (o_attr o3 "rng") as [| | | |[lo|] [hi|]| | | | | | |] eqn:V; try discriminate; unfold x in S4; injection S4 as <-;
        (split; [intros lo' hi' _ [= <- <-]|]); rewrite ?attr_same, ?V; eauto. }
  assert (C5 : (o_attr o "baseline" = VNone -> o_attr o5 "baseline" = VNone) /\ (forall f, o_attr o5 "baseline" <> VBaseFn f)).
  { unfold step_estimate, with_x in S5. rewrite <- BB. destruct (o_attr o4 "baseline") as [| | | | | | |f| | | |] eqn:V;
      try (injection S5 as <-; split; [intros; congruence|intros; congruence]).
    destruct (o_attr o4 "rng") as [| | | |[lo|] [hi|]| | | | | | |]; try discriminate.
    destruct (o_x o4); [|discriminate]. destruct (getrangeslice _ _ _); [|discriminate].
    split; [discriminate|]. intros f'. destruct (estimate_bl L f _ _) as [b|e]; [injection S5 as <-; rewrite attr_same; discriminate|].
    destruct e; try discriminate; injection S5 as <-; rewrite attr_same; discriminate. }
  assert (C6 : (o_attr o "baseline" = VNone \/ In "baseline" args -> o_attr o6 "baseline" = VBase (zero_bl L)) /\ ~ incomplete "baseline" (o_attr o6 "baseline")).
  { unfold step_const in S6. destruct (wanted args o5 "baseline") eqn:W; injection S6 as <-.
    - rewrite attr_same. split; [reflexivity|]. intros [H|[(H & _)|[(H & _)|(_ & f & H)]]]; discriminate.
    - destruct (wanted_false _ _ _ W) as [W1 W2]. split; [intros [H|H]; [destruct C5 as [C5 _]; contradiction (W1 (C5 H))|contradiction]|].
      intros [H|[(H & _)|[(H & _)|(_ & f & H)]]]; [contradiction|discriminate|discriminate|]. destruct C5 as [_ C5]. exact (C5 f H). }
  assert (C7 : (o_attr o "error_method" = VNone \/ In "error_method" args -> o_attr o7 "error_method" = VErr (aic L)) /\ o_attr o7 "error_method" <> VNone).
  { unfold step_const in S7. rewrite <- BM. destruct (wanted args o6 "error_method") eqn:W; injection S7 as <-.
    - rewrite attr_same. split; [reflexivity|discriminate].
    - split; [intros H; apply WI in H; congruence|]. now apply wanted_false in W. }
  assert (C8 : (o_attr o "initial_peaks" = VNone \/ In "initial_peaks" args -> o_attr o' "initial_peaks" = VPeaks (no_peaks L)) /\ o_attr o' "initial_peaks" <> VNone).
  { unfold step_const in S8. rewrite <- BI. destruct (wanted args o7 "initial_peaks") eqn:W; injection S8 as <-.
    - rewrite attr_same. split; [reflexivity|discriminate].
    - split; [intros H; apply WI in H; congruence|]. now apply wanted_false in W. }
  split.
  - intros k Hk. unfold base_vars in Hk. cbn in Hk.
    destruct Hk as [<-|[<-|[<-|[<-|[<-|[<-|[<-|[]]]]]]]].
    + rewrite AE. apply C2.
    + rewrite AR. destruct C4 as (_ & _ & lo & hi & ->). intros [H|[(H & _)|[(_ & l' & h' & H & G)|(H & _)]]]; try discriminate. injection H as <- <-. destruct G; discriminate.
    + rewrite AP. intros [H|[(H & _)|[(H & _)|(H & _)]]]; try discriminate. now apply C3.
    + intros [H|[(H & _)|[(H & _)|(H & _)]]]; try discriminate. now apply C8.
    + rewrite AB. apply C6.
    + rewrite AC. intros [H|[(H & _)|[(H & _)|(H & _)]]]; try discriminate. now apply C1.
    + rewrite AM. intros [H|[(H & _)|[(H & _)|(H & _)]]]; try discriminate. now apply C7.
  - rewrite AC, AE, AP, AR, AB, AM. tauto.
Qed.

(** *** C48: a second call changes nothing. *)
Theorem C48_idempotent :
  forall (args : list string) (o o' : obj) (x0 : R) (rest : list R),
    o_x o = Some (x0 :: rest)%list -> defaultvars L args o = (o', Ok tt) -> defaultvars L [] o' = (o', Ok tt).
Proof.
  intros args o o' x0 rest OX E. destruct (C48_documented_defaults args o o' x0 rest OX E) as (NI & _).
  assert (NT : o_attr o' "rng" <> VNone) by (intros H; apply (NI "rng"); [cbn; tauto|left; exact H]).
  assert (G : forall ks ss, Forall2 (touches []) ks ss -> (forall k, In k ks -> In k base_vars) ->
     (forall s, In s ss -> snd (s o') <> Err TypeError) -> seq_steps ss o' = (o', Ok tt)).
  { induction 1 as [|k s ks ss T _ IH]; intros HB HT; [reflexivity|]. rewrite seq_steps_cons.
    destruct (s o') as [o1 r1] eqn:S1. destruct (T _ _ _ S1) as (_ & _ & K).
    destruct (K (fun H => H) (NI k (HB k (or_introl eq_refl)))) as [-> [->| ->]].
    - apply IH; [intros; apply HB; now right|intros; apply HT; now right].
    - exfalso. apply (HT s (or_introl eq_refl)). now rewrite S1. }
  unfold defaultvars. eapply G; [apply defaultvars_touches|intros k; apply order_base|].
  assert (WF : forall k, In k base_vars -> wanted [] o' k = false) by (intros k Hk; apply wanted_no; [intros []|now apply NI]).
  intros s Hs. cbn in Hs. destruct Hs as [<-|[<-|[<-|[<-|[<-|[<-|[<-|[<-|[]]]]]]]]].
  - unfold step_cres. rewrite WF by (cbn; tauto). discriminate.
  - unfold step_edy. rewrite WF by (cbn; tauto). pose proof (NI "effective_dy") as N. cbn in N. specialize (N (or_introl eq_refl)).
    destruct (o_attr o' "effective_dy"); try discriminate. destruct (Rltb 0 v) eqn:D; [|discriminate].
    exfalso. apply N. right. left. split; [reflexivity|]. exists v. split; [reflexivity|]. now apply Rltb_spec.
  - unfold step_pf. rewrite WF by (cbn; tauto). discriminate.
  - unfold step_rng. rewrite WF by (cbn; tauto).
    assert (RR : exists lo hi, o_attr o' "rng" = VRng (Some lo) (Some hi)).
    { clear G. apply defaultvars_steps in E as (o1 & o2 & o3 & o4 & o5 & o6 & o7 & S1 & S2 & S3 & S4 & S5 & S6 & S7 & S8).
      destruct (touches_estimate args _ _ _ S5) as (D5 & T5 & _). destruct (touches_const _ _ _ _ _ _ S6) as (D6 & T6 & _).
      destruct (touches_const _ _ _ _ _ _ S7) as (D7 & T7 & _). destruct (touches_const _ _ _ _ _ _ S8) as (D8 & T8 & _).
      assert (AR : o_attr o' "rng" = o_attr o4 "rng") by (rewrite T8, T7, T6, T5 by discriminate; reflexivity). rewrite AR.
      unfold step_rng, with_x, first_last in S4. destruct (wanted args o3 "rng").
      - destruct (o_x o3) as [[|a x]|]; [discriminate| |discriminate]. injection S4 as <-. rewrite attr_same. eauto.
      - destruct (o_attr o3 "rng") as [| | | |[lo|] [hi|]| | | | | | |] eqn:V; try discriminate; [injection S4 as <-; eauto| | |];
          (destruct (o_x o3) as [[|a x]|]; [discriminate| |discriminate]); injection S4 as <-; rewrite attr_same; eauto. }
    destruct RR as (lo & hi & ->). discriminate.
  - unfold step_estimate. pose proof (NI "baseline") as N. assert (IB : In "baseline" base_vars) by (cbn; tauto). specialize (N IB).
    destruct (o_attr o' "baseline"); try discriminate. exfalso. apply N. right. right. right. split; [reflexivity|eauto].
  - unfold step_const. rewrite WF by (cbn; tauto). discriminate.
  - unfold step_const. rewrite WF by (cbn; tauto). discriminate.
  - unfold step_const. rewrite WF by (cbn; tauto). discriminate.
Qed.

(** *** C48: success *)
Lemma seq_ok (ss : list (obj -> obj * result unit)) (I : obj -> Prop) : (forall s, In s ss -> forall o, I o -> exists o', s o = (o', Ok tt) /\ I o') ->
  forall o, I o -> exists o', seq_steps ss o = (o', Ok tt) /\ I o'.
Proof.
  induction ss as [|s ss IH]; intros H o Ho; [exists o; split; [reflexivity|exact Ho]|]. rewrite seq_steps_cons.
  destruct (H s (or_introl eq_refl) o Ho) as (o1 & -> & H1). apply IH; [|exact H1]. intros; eapply H; [now right|eassumption].
Qed.
Definition rng_typed (v : value) : Prop := v = VNone \/ exists lo hi, v = VRng lo hi.
(** With data, a range of the right type and a baseline that is not a function still to
    be estimated, defaultvars does not raise. *)
Theorem C48_succeeds :
  forall (args : list string) (o : obj) (x0 : R) (rest : list R),
    o_x o = Some (x0 :: rest)%list -> o_y o <> []%list -> rng_typed (o_attr o "rng") ->
    (forall f, o_attr o "baseline" <> VBaseFn f) ->
    exists o', defaultvars L args o = (o', Ok tt).
Proof.
  intros args o x0 rest OX OY OR OB.
  set (I := fun q : obj => o_x q = Some (x0 :: rest)%list /\ o_y q <> []%list /\ rng_typed (o_attr q "rng") /\ (forall f, o_attr q "baseline" <> VBaseFn f)).
  assert (SI : forall q k v, I q -> k <> "rng" -> (k = "baseline" -> forall f, v <> VBaseFn f) -> I (setattr q k v)).
  { intros q k v (A & B & C & D) NK NV. split; [exact A|]. split; [exact B|]. split; [rewrite attr_other by congruence; exact C|].
    destruct (string_dec k "baseline") as [->|NB]; [rewrite attr_same; intros f; apply NV; reflexivity|]. rewrite attr_other by congruence. exact D. }
  destruct (seq_ok [step_cres args; step_edy args; step_pf L args; step_rng args; step_estimate L;
             step_const "baseline" (VBase (zero_bl L)) args; step_const "error_method" (VErr (aic L)) args;
             step_const "initial_peaks" (VPeaks (no_peaks L)) args] I) with (o := o) as (o' & E & _); [| |exists o'; exact E].
  2:{ split; [exact OX|]. split; [exact OY|]. split; [exact OR|exact OB]. }
  intros s Hs q Hq. pose proof Hq as (A & B & C & D). cbn in Hs. destruct Hs as [<-|[<-|[<-|[<-|[<-|[<-|[<-|[<-|[]]]]]]]]].
  - unfold step_cres, with_x, first_last. rewrite A. destruct (wanted _ _ _); eexists; (split; [reflexivity|]); [|exact Hq]. apply SI; [exact Hq|discriminate|discriminate].
  - unfold step_edy, with_x. rewrite A. destruct (wanted _ _ _).
    + destruct (forallb _ _); [eexists; split; [reflexivity|apply SI; [exact Hq|discriminate|discriminate]]|].
      destruct (o_y q); [contradiction|]. eexists; split; [reflexivity|apply SI; [exact Hq|discriminate|discriminate]].
    + destruct (o_attr q "effective_dy"); try (eexists; split; [reflexivity|exact Hq]).
      destruct (Rltb 0 v); eexists; (split; [reflexivity|]); [apply SI; [exact Hq|discriminate|discriminate]|exact Hq].
  - unfold step_pf, with_x, first_last. rewrite A. destruct (wanted _ _ _); eexists; (split; [reflexivity|]); [|exact Hq]. apply SI; [exact Hq|discriminate|discriminate].
  - assert (SR : forall lo hi, I (setattr q "rng" (VRng lo hi))).
    { intros lo hi. split; [exact A|]. split; [exact B|]. split; [rewrite attr_same; right; eauto|]. rewrite attr_other by discriminate. exact D. }
    unfold step_rng, with_x, first_last. rewrite A. destruct (wanted args q "rng") eqn:W; [eexists; split; [reflexivity|apply SR]|].
    apply wanted_false in W as [W _]. destruct C as [C|(lo & hi & C)]; [contradiction|]. rewrite C.
    destruct lo, hi; eexists; (split; [reflexivity|]); [exact Hq|apply SR|apply SR|apply SR].
  - unfold step_estimate. exists q. split; [|exact Hq]. destruct (o_attr q "baseline"); try reflexivity. exfalso. eapply D. reflexivity.
  - unfold step_const. destruct (wanted _ _ _); eexists; (split; [reflexivity|]); [apply SI; [exact Hq|discriminate|discriminate]|exact Hq].
  - unfold step_const. destruct (wanted _ _ _); eexists; (split; [reflexivity|]); [apply SI; [exact Hq|discriminate|discriminate]|exact Hq].
  - unfold step_const. destruct (wanted _ _ _); eexists; (split; [reflexivity|]); [apply SI; [exact Hq|discriminate|discriminate]|exact Hq].
Qed.

(** *** C47 *)
Lemma known_in known k : existsb (String.eqb k) known = true <-> In k known.
Proof.
  rewrite existsb_exists. split; [intros (k' & I & E); apply String.eqb_eq in E; now subst|]. intros I. exists k. split; [exact I|apply String.eqb_refl].
Qed.
Lemma store_spec known : forall kwds (o o' : obj) r, store known kwds o = (o', r) -> NoDup (map fst kwds) ->
  same_data o o' /\
  exists done rest, kwds = (done ++ rest)%list /\ (forall k, In k (map fst done) -> In k known) /\
    (forall k v, In (k, v) done -> o_attr o' k = v) /\ (forall k, ~ In k (map fst done) -> o_attr o' k = o_attr o k) /\
    match rest with [] => r = Ok tt | (k, _) :: _ => ~ In k known /\ r = Err ValueError end.
Proof.
  induction kwds as [|[k v] kwds IH]; intros o o' r E ND; cbn [store] in E.
  - injection E as <- <-. split; [apply same_data_refl|]. exists [], []. split; [reflexivity|]. split; [intros ? []|]. split; [intros ? ? []|]. split; reflexivity.
  - cbn [map fst] in ND. inversion ND as [|? ? N1 N2]; subst. destruct (existsb (String.eqb k) known) eqn:EK.
    + apply known_in in EK. destruct (IH _ _ _ E N2) as (D & done & rest & E1 & E2 & E3 & E4 & E5).
      split; [exact D|]. exists ((k, v) :: done), rest. split; [cbn; now rewrite E1|]. split; [|split; [|split; [|exact E5]]].
      * intros k' [<-|I]; [exact EK|now apply E2].
      * intros k' v' [[= <- <-]|I]; [|now apply E3]. rewrite E4; [apply attr_same|]. intros I. apply N1. rewrite E1, map_app. apply in_or_app. now left.
      * intros k' N'. cbn [map fst] in N'. rewrite E4 by (intros I; apply N'; now right). apply attr_other. intros ->. apply N'. now left.
    + injection E as <- <-. split; [apply same_data_refl|]. exists [], ((k, v) :: kwds).
      split; [reflexivity|]. split; [intros ? []|]. split; [intros ? ? []|]. split; [reflexivity|]. split; [|reflexivity].
      intros I. apply known_in in I. congruence.
Qed.

(** All names known: each value is stored, everything else keeps its value, and then unset
    variables get their defaults (C48). *)
Theorem C47_known_names_are_stored :
  forall (kwds : list (string * value)) (o : obj), NoDup (map fst kwds) ->
    (forall k, In k (map fst kwds) -> In k base_vars) ->
    exists o1 : obj, setvars L kwds o = defaultvars L [] o1 /\ same_data o o1 /\
      (forall k v, In (k, v) kwds -> o_attr o1 k = v) /\
      (forall k, ~ In k (map fst kwds) -> o_attr o1 k = o_attr o k) /\
      (* and in the final state, whether or not setting the defaults raised: *)
      (forall k v, In (k, v) kwds -> ~ incomplete k v -> o_attr (fst (setvars L kwds o)) k = v) /\
      (forall k, ~ In k (map fst kwds) -> ~ incomplete k (o_attr o k) -> o_attr (fst (setvars L kwds o)) k = o_attr o k) /\
      (forall k, ~ In k base_vars -> o_attr (fst (setvars L kwds o)) k = o_attr o k).
Proof.
  intros kwds o ND HK. unfold setvars, setvars_with. destruct (store base_vars kwds o) as [o1 r] eqn:E.
  destruct (store_spec _ _ _ _ _ E ND) as (D & done & rest & E1 & E2 & E3 & E4 & E5). destruct rest as [|[k v] rest].
  2:{ exfalso. destruct E5 as [E5 _]. apply E5, HK. rewrite E1, map_app. apply in_or_app. right. left. reflexivity. }
  subst r. rewrite app_nil_r in E1. subst done. exists o1. split; [reflexivity|]. split; [exact D|]. split; [exact E3|]. split; [exact E4|].
  destruct (defaultvars L [] o1) as [o2 r2] eqn:DV. destruct (C48_explicit_settings_survive [] o1 o2 r2 DV) as (_ & S1 & S2). cbn [fst]. split; [|split].
  - intros k v I NI. rewrite S2; [now apply E3|intros []|]. now rewrite (E3 k v I).
  - intros k N NI. rewrite S2; [now apply E4|intros []|]. now rewrite (E4 k N).
  - intros k N. rewrite S1 by exact N. apply E4. intros I. apply N, HK, I.
Qed.

(** An unknown name: ValueError; the keywords before it (in call order) are stored already,
    those after it are not, and no defaults are set. *)
Theorem C47_unknown_name_is_rejected :
  forall (pre post : list (string * value)) (k : string) (v : value) (o : obj), NoDup (map fst (pre ++ (k, v) :: post)%list) ->
    (forall k', In k' (map fst pre) -> In k' base_vars) -> ~ In k base_vars ->
    exists o' : obj, setvars L (pre ++ (k, v) :: post)%list o = (o', Err ValueError) /\ same_data o o' /\
      (forall k' v', In (k', v') pre -> o_attr o' k' = v') /\
      (forall k', ~ In k' (map fst pre) -> o_attr o' k' = o_attr o k').
Proof.
  intros pre post k v o ND HK NK. unfold setvars, setvars_with. destruct (store base_vars _ o) as [o1 r] eqn:E.
  destruct (store_spec _ _ _ _ _ E ND) as (D & done & rest & E1 & E2 & E3 & E4 & E5).
  assert (DP : done = pre).
  { clear - E1 E2 E5 HK NK. revert done E1 E2. induction pre as [|[k0 v0] pre IH]; intros done E1 E2.
    - destruct done as [|[k1 v1] done]; [reflexivity|]. cbn [app] in E1. injection E1 as -> _ _. exfalso. apply NK, E2. now left.
    - destruct done as [|[k1 v1] done].
      + cbn [app] in E1. destruct rest as [|[k2 v2] rest]; [discriminate|]. injection E1 as -> _ _. exfalso. apply E5. apply HK. now left.
      + cbn [app] in E1. injection E1 as -> -> E1. f_equal. apply IH; [|exact E1|].
        * intros k' Ik. apply HK. now right.
        * intros k' Ik. apply E2. now right. }
  subst done. apply app_inv_head in E1. subst rest. destruct E5 as [_ ->].
  exists o1. split; [reflexivity|]. split; [exact D|]. split; [exact E3|exact E4].
Qed.

(** clear: back to the initial state, whatever was set. *)
Definition cleared_base : list string :=
  ["effective_dy"; "cres"; "pf"; "baseline"; "error_method"; "initial_peaks"; "rng"; "extracted"; "extraction_type"].
Definition cleared_pdf : list string :=
  (cleared_base ++ ["filename"; "nyquist"; "qmax"; "qmax_reportedbypdf"; "qmax_fromdata"; "scale"; "supersample"])%list.
Theorem C47_clear :
  forall o : obj,
    (forall k, In k base_vars -> In k cleared_base) /\ (forall k, In k pdf_vars -> In k cleared_pdf) /\
    (o_x (clear o) = None /\ o_y (clear o) = []%list /\ o_dx (clear o) = []%list /\ o_dy (clear o) = []%list) /\
    (forall k, In k cleared_base -> o_attr (clear o) k = VNone) /\
    (forall k, ~ In k cleared_base -> o_attr (clear o) k = o_attr o k) /\
    (o_x (pdf_clear o) = None /\ o_y (pdf_clear o) = []%list /\ o_dx (pdf_clear o) = []%list /\ o_dy (pdf_clear o) = []%list) /\
    (forall k, In k cleared_pdf -> o_attr (pdf_clear o) k = VNone) /\
    (forall k, ~ In k cleared_pdf -> o_attr (pdf_clear o) k = o_attr o k).
Proof.
  intros o.
  assert (FL : forall ks (q : obj), (forall k, In k ks -> o_attr (fold_left (fun o k => setattr o k VNone) ks q) k = VNone) /\
     (forall k, ~ In k ks -> o_attr (fold_left (fun o k => setattr o k VNone) ks q) k = o_attr q k) /\ same_data q (fold_left (fun o k => setattr o k VNone) ks q)).
  { induction ks as [|k0 ks IH]; intros q; cbn [fold_left]; [repeat split; intros ? []|].
    destruct (IH (setattr q k0 VNone)) as (H1 & H2 & H3). split; [|split].
    - intros k [<-|I]; [|now apply H1]. destruct (in_dec string_dec k0 ks) as [I|N]; [now apply H1|]. rewrite H2 by exact N. apply attr_same.
    - intros k N. rewrite H2 by (intros I; apply N; now right). apply attr_other. intros ->. apply N. now left.
    - exact H3. }
  split; [intros k; unfold base_vars, cleared_base; cbn; intuition|]. split; [intros k; unfold pdf_vars, base_vars, cleared_pdf, cleared_base; cbn; intuition|].
  assert (CL : forall q : obj, (o_x (clear q) = None /\ o_y (clear q) = []%list /\ o_dx (clear q) = []%list /\ o_dy (clear q) = []%list) /\
    (forall k, In k cleared_base -> o_attr (clear q) k = VNone) /\ (forall k, ~ In k cleared_base -> o_attr (clear q) k = o_attr q k)).
  { intros q. set (ks := ["effective_dy"; "cres"; "pf"; "baseline"; "error_method"; "initial_peaks"; "rng"]).
    destruct (FL ks (mkObj (o_attr q) None [] [] [])) as (H1 & H2 & (H3 & H4 & H5 & H6)).
    unfold clear, clearcalc. fold ks. set (q1 := fold_left _ ks _) in *. split; [|split].
    - cbn [setattr o_x o_y o_dx o_dy]. auto.
    - intros k I. destruct (string_dec k "extraction_type") as [->|N1]; [apply attr_same|]. rewrite attr_other by exact N1.
      destruct (string_dec k "extracted") as [->|N2]; [apply attr_same|]. rewrite attr_other by exact N2. apply H1.
      unfold cleared_base in I. change (In k (ks ++ ["extracted"; "extraction_type"])%list) in I. apply in_app_or in I as [I|[<-|[<-|[]]]]; [exact I|contradiction|contradiction].
    - intros k N. assert (NK : ~ In k ks) by (intros I; apply N; change (In k (ks ++ ["extracted"; "extraction_type"])%list); apply in_or_app; now left).
      rewrite !attr_other; [now apply H2| |]; intros ->; apply N; unfold cleared_base; cbn; tauto. }
  destruct (CL o) as (A1 & A2 & A3). split; [exact A1|]. split; [exact A2|]. split; [exact A3|].
  unfold pdf_clear. set (ks := ["filename"; "nyquist"; "qmax"; "qmax_reportedbypdf"; "qmax_fromdata"; "scale"; "supersample"]).
  destruct (FL ks o) as (H1 & H2 & _). set (q := fold_left _ ks o) in *. destruct (CL q) as (B1 & B2 & B3). split; [exact B1|].
  change cleared_pdf with (cleared_base ++ ks)%list. split.
  - intros k I. destruct (in_dec string_dec k cleared_base) as [J|N]; [now apply B2|]. rewrite B3 by exact N. apply H1.
    apply in_app_or in I as [I|I]; [contradiction|exact I].
  - intros k N. rewrite B3 by (intros I; apply N, in_or_app; now left). apply H2. intros I. apply N, in_or_app; now right.
Qed.

(** *** The PDF class *)
Lemma lookup_in k (kwds : list (string * value)) v : lookup k kwds = Some v -> In (k, v) kwds.
Proof.
  induction kwds as [|[k' v'] kwds IH]; cbn [lookup]; [discriminate|]. destruct (String.eqb_spec k k') as [->|]; [intros [= <-]; now left|right; auto].
Qed.
Lemma lookup_none k (kwds : list (string * value)) : lookup k kwds = None <-> ~ In k (map fst kwds).
Proof.
  induction kwds as [|[k' v'] kwds IH]; cbn [lookup map fst]; [tauto|]. destruct (String.eqb_spec k k') as [->|NE].
  - split; [discriminate|]. intros H. exfalso. apply H. now left.
  - rewrite IH. cbn. intuition.
Qed.

(** Rejected before anything changes: dg together with effective_dy, qmax="automatic"
    without a value from the data, supersample below 1.  Otherwise dg acts as
    effective_dy and "automatic" as the value found in the data. *)
Theorem C47_pdf_checks_are_atomic :
  forall (kwds : list (string * value)) (o : obj),
    (In "dg" (map fst kwds) -> In "effective_dy" (map fst kwds) -> pdf_setvars L kwds o = (o, Err ValueError)) /\
    (NoDup (map fst kwds) -> ~ (In "dg" (map fst kwds) /\ In "effective_dy" (map fst kwds)) ->
     In ("qmax", VStr "automatic") kwds -> o_attr o "qmax_fromdata" = VNone -> pdf_setvars L kwds o = (o, Err QmaxError)) /\
    (NoDup (map fst kwds) -> ~ (In "dg" (map fst kwds) /\ In "effective_dy" (map fst kwds)) -> ~ In ("qmax", VStr "automatic") kwds ->
     forall s, In ("supersample", VNum s) kwds -> s < 1 -> pdf_setvars L kwds o = (o, Err ValueError)).
Proof.
  assert (LK : forall k (kwds : list (string * value)) v, NoDup (map fst kwds) -> In (k, v) kwds -> lookup k kwds = Some v).
  { intros k. induction kwds as [|[k' v'] kwds IH]; intros v ND HI; [destruct HI|]. cbn [lookup map fst] in *. inversion ND as [|? ? N1 N2]; subst. destruct HI as [E|I].
    - injection E as -> ->. now rewrite String.eqb_refl.
    - destruct (String.eqb_spec k k') as [->|]; [exfalso; apply N1; apply in_map_iff; exists (k', v); auto|now apply IH]. }
  assert (LW : forall k k' (kwds : list (string * value)) w, k <> k' -> k <> "effective_dy" -> lookup k (without k' kwds ++ [("effective_dy", w)])%list = lookup k kwds).
  { intros k k' kwds w N1 N2. induction kwds as [|[k1 v1] kwds IH]; cbn [without filter app lookup fst].
    - destruct (String.eqb_spec k "effective_dy"); [contradiction|reflexivity].
    - destruct (String.eqb_spec k' k1) as [->|N3]; cbn [negb].
      + destruct (String.eqb_spec k k1); [contradiction|exact IH].
      + cbn [app lookup]. destruct (String.eqb_spec k k1); [reflexivity|exact IH]. }
  intros kwds o.
  assert (ST : ~ (In "dg" (map fst kwds) /\ In "effective_dy" (map fst kwds)) ->
     exists k1, (match lookup "dg" kwds with
              | None => Ok kwds
              | Some v => match lookup "effective_dy" kwds with
                          | None => Ok (without "dg" kwds ++ [("effective_dy", v)])%list
                          | Some _ => Err ValueError end
              end) = Ok k1 /\ lookup "qmax" k1 = lookup "qmax" kwds /\ lookup "supersample" k1 = lookup "supersample" kwds).
  { intros ND. destruct (lookup "dg" kwds) as [v|] eqn:L1; [|exists kwds; auto].
    destruct (lookup "effective_dy" kwds) as [v'|] eqn:L2.
    - exfalso. apply ND. split; apply in_map_iff; [exists ("dg", v)|exists ("effective_dy", v')]; (split; [reflexivity|now apply lookup_in]).
    - eexists. split; [reflexivity|]. split; apply LW; discriminate. }
  split; [|split].
  - intros I1 I2. unfold pdf_setvars. destruct (lookup "dg" kwds) as [v|] eqn:L1; [|apply lookup_none in L1; contradiction].
    destruct (lookup "effective_dy" kwds) as [v'|] eqn:L2; [|apply lookup_none in L2; contradiction]. reflexivity.
  - intros ND N I Q. destruct (ST N) as (k1 & E1 & E2 & _). unfold pdf_setvars. rewrite E1. cbn [bind]. rewrite E2, (LK _ _ _ ND I), Q. reflexivity.
  - intros ND N NA s I Hs. destruct (ST N) as (k1 & E1 & E2 & E3). unfold pdf_setvars. rewrite E1. cbn [bind]. rewrite E2.
    assert (HQ : forall k2, (lookup "supersample" k2 = lookup "supersample" kwds) ->
      (match lookup "supersample" k2 with
       | None => Ok k2 | Some (VNum s) => if Rltb s 1 then Err ValueError else Ok k2 | Some _ => Err TypeError end) = Err ValueError).
    { intros k2 Ek. rewrite Ek, (LK _ _ _ ND I). assert (X1 : Rltb s 1 = true) by (now apply Rltb_spec). now rewrite X1. }
    destruct (lookup "qmax" kwds) as [vq|] eqn:LQ; [|cbn [bind]; rewrite HQ by exact E3; reflexivity].
    assert (NQ : vq <> VStr "automatic") by (intros ->; apply NA; now apply lookup_in).
    assert (MM : (match vq with VStr s => if String.eqb s "automatic" then match o_attr o "qmax_fromdata" with VNone => Err QmaxError | v => Ok (replace "qmax" v k1) end else Ok k1 | _ => Ok k1 end) = Ok k1).
    { destruct vq; try reflexivity. destruct (String.eqb_spec s0 "automatic") as [->|NS]; [contradiction|reflexivity]. }
    rewrite MM. cbn [bind]. rewrite HQ by exact E3. reflexivity.
Qed.

(** What the accepted keywords amount to. *)
Theorem C47_pdf_aliases :
  forall (kwds : list (string * value)) (o : obj), NoDup (map fst kwds) ->
    ~ (In "dg" (map fst kwds) /\ In "effective_dy" (map fst kwds)) ->
    (In ("qmax", VStr "automatic") kwds -> o_attr o "qmax_fromdata" <> VNone) ->
    (forall v, In ("supersample", v) kwds -> exists s, v = VNum s /\ 1 <= s) ->
    exists kwds', pdf_setvars L kwds o = setvars_with pdf_vars (pdf_defaultvars L) kwds' o /\ NoDup (map fst kwds') /\
      (forall k v, In (k, v) kwds' <->
         (In (k, v) kwds /\ k <> "dg" /\ (k, v) <> ("qmax", VStr "automatic")) \/
         (k = "effective_dy" /\ In ("dg", v) kwds) \/
         (k = "qmax" /\ v = o_attr o "qmax_fromdata" /\ In ("qmax", VStr "automatic") kwds)).
Proof.
  intros kwds o ND N1 N2 N3.
  assert (LK : forall k (kw : list (string * value)) v, NoDup (map fst kw) -> In (k, v) kw -> lookup k kw = Some v).
  { intros k. induction kw as [|[k' v'] kw IH]; intros v ND' HI; [destruct HI|]. cbn [lookup map fst] in *. inversion ND' as [|? ? M1 M2]; subst. destruct HI as [E|I].
    - injection E as -> ->. now rewrite String.eqb_refl.
    - destruct (String.eqb_spec k k') as [->|]; [exfalso; apply M1; apply in_map_iff; exists (k', v); auto|now apply IH]. }
  assert (UQ : forall (kw : list (string * value)) k v v', NoDup (map fst kw) -> In (k, v) kw -> In (k, v') kw -> v = v').
  { intros kw k v v' D1 I1 I2. apply LK in I1, I2; auto. congruence. }
  assert (ST : exists k1, (match lookup "dg" kwds with
              | None => Ok kwds
              | Some v => match lookup "effective_dy" kwds with
                          | None => Ok (without "dg" kwds ++ [("effective_dy", v)])%list
                          | Some _ => Err ValueError end
              end) = Ok k1 /\ NoDup (map fst k1) /\
              (forall k v, In (k, v) k1 <-> (In (k, v) kwds /\ k <> "dg") \/ (k = "effective_dy" /\ In ("dg", v) kwds))).
  { destruct (lookup "dg" kwds) as [v|] eqn:L1.
    - apply lookup_in in L1. destruct (lookup "effective_dy" kwds) as [v'|] eqn:L2.
      { exfalso. apply N1. apply lookup_in in L2. split; apply in_map_iff; [exists ("dg", v)|exists ("effective_dy", v')]; auto. }
      apply lookup_none in L2. eexists. split; [reflexivity|].
      assert (IW : forall k0 v0, In (k0, v0) (without "dg" kwds) <-> In (k0, v0) kwds /\ k0 <> "dg").
      { intros k0 v0. unfold without. rewrite filter_In. cbn [fst]. destruct (String.eqb_spec "dg" k0); cbn [negb]; intuition congruence. }
      split.
      + rewrite map_app. cbn [map fst]. apply NoDup_app_intro.
        * clear - ND. unfold without. induction kwds as [|[k0 v0] kw IH]; [constructor|]. cbn [map fst] in ND. inversion ND as [|? ? M1 M2]; subst.
          cbn [filter fst]. destruct (negb (String.eqb "dg" k0)); [|now apply IH]. cbn [map fst]. constructor; [|now apply IH].
          intros I. apply M1. apply in_map_iff in I as ([k1 v1] & E & I). apply filter_In in I as [I _]. apply in_map_iff. exists (k1, v1). auto.
        * repeat constructor. intros [].
        * intros k0 I [<-|[]]. apply L2. apply in_map_iff in I as ([k1 v1] & E & I). cbn in E. subst k1. apply IW in I as [I _]. apply in_map_iff. exists ("effective_dy", v1). auto.
      + intros k0 v0. rewrite in_app_iff, IW. cbn [In]. split.
        * intros [H|[[= <- <-]|[]]]; [left; exact H|right; auto].
        * intros [H|[-> H]]; [left; exact H|]. right. left. f_equal. eapply UQ; eauto.
    - apply lookup_none in L1. exists kwds. split; [reflexivity|]. split; [exact ND|]. intros k0 v0. split.
      + intros I. left. split; [exact I|]. intros ->. apply L1. apply in_map_iff. exists ("dg", v0). auto.
      + intros [[I _]|[_ I]]; [exact I|]. exfalso. apply L1. apply in_map_iff. exists ("dg", v0). auto. }
  destruct ST as (k1 & E1 & D1 & H1).
  assert (Q1 : forall v, In ("qmax", v) k1 <-> In ("qmax", v) kwds).
  { intros v. rewrite H1. split; [intros [[H _]|[H _]]; [exact H|discriminate]|]. intros H. left. split; [exact H|discriminate]. }
  assert (S1 : forall v, In ("supersample", v) k1 <-> In ("supersample", v) kwds).
  { intros v. rewrite H1. split; [intros [[H _]|[H _]]; [exact H|discriminate]|]. intros H. left. split; [exact H|discriminate]. }
  assert (ST2 : exists k2, (match lookup "qmax" k1 with
              | Some (VStr s) =>
                if String.eqb s "automatic" then
                  match o_attr o "qmax_fromdata" with VNone => Err QmaxError | v => Ok (replace "qmax" v k1) end
                else Ok k1
              | _ => Ok k1 end) = Ok k2 /\ map fst k2 = map fst k1 /\
              (forall k v, In (k, v) k2 <-> (In (k, v) k1 /\ (k, v) <> ("qmax", VStr "automatic")) \/
                 (k = "qmax" /\ v = o_attr o "qmax_fromdata" /\ In ("qmax", VStr "automatic") k1))).
  { assert (SAME : ~ In ("qmax", VStr "automatic") k1 -> exists k2, Ok k1 = Ok k2 /\ map fst k2 = map fst k1 /\
              (forall k v, In (k, v) k2 <-> (In (k, v) k1 /\ (k, v) <> ("qmax", VStr "automatic")) \/
                 (k = "qmax" /\ v = o_attr o "qmax_fromdata" /\ In ("qmax", VStr "automatic") k1))).
    { intros NA. exists k1. split; [reflexivity|]. split; [reflexivity|]. intros k v. split.
      - intros I. left. split; [exact I|]. intros [= -> ->]. contradiction.
      - intros [[I _]|(_ & _ & I)]; [exact I|contradiction]. }
    destruct (lookup "qmax" k1) as [vq|] eqn:LQ.
    2:{ apply SAME. intros I. apply lookup_none in LQ. apply LQ. apply in_map_iff. exists ("qmax", VStr "automatic"). auto. }
    apply lookup_in in LQ. assert (NA : vq <> VStr "automatic" -> ~ In ("qmax", VStr "automatic") k1).
    { intros NE I. apply NE. eapply UQ; [exact D1|exact LQ|exact I]. }
    destruct vq; try (apply SAME, NA; discriminate). destruct (String.eqb_spec s "automatic") as [->|NS]; [|apply SAME, NA; congruence].
    assert (QN : o_attr o "qmax_fromdata" <> VNone) by (apply N2, Q1; exact LQ).
    exists (replace "qmax" (o_attr o "qmax_fromdata") k1). split; [destruct (o_attr o "qmax_fromdata"); try reflexivity; contradiction|].
    assert (RF : forall kw : list (string * value), NoDup (map fst kw) -> map fst (replace "qmax" (o_attr o "qmax_fromdata") kw) = map fst kw /\
       (forall k v, In (k, v) (replace "qmax" (o_attr o "qmax_fromdata") kw) <-> (In (k, v) kw /\ k <> "qmax") \/
          (k = "qmax" /\ v = o_attr o "qmax_fromdata" /\ In "qmax" (map fst kw)))).
    { induction kw as [|[k0 v0] kw IH]; intros DW; cbn [replace map fst] in *; [split; [reflexivity|]; intros k v; cbn; tauto|].
      inversion DW as [|? ? M1 M2]; subst. destruct (String.eqb_spec "qmax" k0) as [<-|NE].
      - split; [reflexivity|]. intros k v. cbn [In]. split.
        + intros [[= <- <-]|I]; [right; auto|]. left. split; [now right|]. intros ->. apply M1. apply in_map_iff. exists ("qmax", v). auto.
        + intros [[[[= <- <-]|I] NK]|(-> & -> & _)]; [contradiction|now right|now left].
      - destruct (IH M2) as [I1 I2]. split; [cbn [map fst]; now rewrite I1|]. intros k v. cbn [In]. rewrite I2. split.
        + intros [[= <- <-]|[[I NK]|(-> & -> & I)]]; [left; split; [now left|congruence]|left; split; [now right|exact NK]|right; auto].
        + intros [[[[= <- <-]|I] NK]|(-> & -> & [E|I])]; [now left|right; left; auto|congruence|right; right; auto]. }
    destruct (RF k1 D1) as [R1 R2]. split; [exact R1|]. intros k v. rewrite R2. split.
    - intros [[I NK]|(-> & -> & I)]; [left; split; [exact I|congruence]|right; auto].
    - intros [[I NK]|(-> & -> & I)].
      + left. split; [exact I|]. intros ->. apply NK. f_equal. eapply UQ; [exact D1|exact I|exact LQ].
      + right. split; [reflexivity|]. split; [reflexivity|]. apply in_map_iff. exists ("qmax", VStr "automatic"). auto. }
  destruct ST2 as (k2 & E2 & F2 & H2). exists k2. split; [|split].
  - unfold pdf_setvars. rewrite E1. cbn [bind]. rewrite E2. cbn [bind].
    destruct (lookup "supersample" k2) as [v|] eqn:LS; [|reflexivity]. apply lookup_in in LS. apply H2 in LS.
    destruct LS as [[LS _]|(LS & _)]; [|discriminate]. apply S1 in LS. apply N3 in LS as (s & -> & Hs).
    assert (X1 : Rltb s 1 = false) by (apply Rltb_false; exact Hs). rewrite X1. reflexivity.
  - rewrite F2. exact D1.
  - intros k v. rewrite H2, H1, Q1. split.
    + intros [[[[I ND']|[-> I]] NE]|H]; [left; auto|right; left; auto|right; right; exact H].
    + intros [(I & NK & NE)|[[-> I]|H]]; [left; split; [left; auto|exact NE]|left; split; [right; auto|discriminate]|right; exact H].
Qed.

(** *** C48 for the PDF class *)
Lemma touches_qmax args : touches args "qmax" (step_qmax (X:=X) (F:=F) (BF:=BF) (BL:=BL) (EM:=EM) (PK:=PK) args).
Proof.
  intros o o' r E. unfold step_qmax in E. destruct (wanted args o "qmax") eqn:W; [|eapply touch_keep; [exact E|auto]].
  apply wanted_inc in W. eapply touch_set; [exact E|auto].
Qed.
Lemma touches_nyquist args : touches args "nyquist" (step_nyquist (X:=X) (F:=F) (BF:=BF) (BL:=BL) (EM:=EM) (PK:=PK) args).
Proof.
  intros o o' r E. unfold step_nyquist in E. destruct (wanted args o "nyquist") eqn:W; [|eapply touch_keep; [exact E|auto]].
  apply wanted_inc in W. destruct (posnum _); [eapply touch_set; [exact E|auto]|eapply touch_keep; [exact E|auto]].
Qed.
Lemma touches_pdfcres args : touches args "cres" (step_pdfcres (X:=X) (F:=F) (BF:=BF) (BL:=BL) (EM:=EM) (PK:=PK) args).
Proof.
  intros o o' r E. unfold step_pdfcres in E. destruct (wanted args o "cres") eqn:W; [|eapply touch_keep; [exact E|auto]].
  apply wanted_inc in W. destruct (o_attr o "qmax"); try (eapply touch_keep; [exact E|auto]).
  destruct (Rltb 0 v); [eapply touch_set; [exact E|auto]|eapply touch_keep; [exact E|auto]].
Qed.
Definition pdf_order : list string := ["qmax"; "nyquist"; "scale"; "supersample"; "cres"; "pf"].
Lemma pdf_touches args : Forall2 (touches args) pdf_order
  [step_qmax args; step_nyquist args; step_const "scale" (VBool false) args;
   step_const "supersample" (VNum 4) args; step_pdfcres args; step_const "pf" (VPf [gor L (7 / 10)]) args].
Proof.
  constructor; [apply touches_qmax|]. constructor; [apply touches_nyquist|]. constructor; [apply touches_const|]. constructor; [apply touches_const|].
  constructor; [apply touches_pdfcres|]. constructor; [apply touches_const|]. constructor.
Qed.
Lemma in_removed k a args : In k (removed a args) <-> In k args /\ k <> a.
Proof. unfold removed. rewrite filter_In. destruct (String.eqb_spec k a); cbn [negb]; intuition congruence. Qed.
(** Which names reach the base class. *)
Lemma in_pdf_nargs args (o : obj) k : In k (pdf_nargs args o) <->
  (In k args /\ k <> "qmax" /\ k <> "nyquist" /\ k <> "scale" /\ k <> "supersample" /\ k <> "pf" /\
   (k = "cres" -> match o_attr o "qmax" with VNum q => ~ 0 < q | _ => True end)) \/
  (k = "effective_dy" /\ In "dg" args).
Proof.
  unfold pdf_nargs. cbv zeta.
  set (n1 := removed "pf" (removed "supersample" (removed "scale" (removed "nyquist" (removed "qmax" args))))).
  set (n2 := match o_attr o "qmax" with VNum q => if Rltb 0 q then removed "cres" n1 else n1 | _ => n1 end).
  assert (H1 : In k n1 <-> In k args /\ k <> "qmax" /\ k <> "nyquist" /\ k <> "scale" /\ k <> "supersample" /\ k <> "pf").
  { unfold n1. rewrite !in_removed. tauto. }
  assert (H2 : In k n2 <-> In k args /\ k <> "qmax" /\ k <> "nyquist" /\ k <> "scale" /\ k <> "supersample" /\ k <> "pf" /\
     (k = "cres" -> match o_attr o "qmax" with VNum q => ~ 0 < q | _ => True end)).
  { unfold n2. destruct (o_attr o "qmax"); try (rewrite H1; tauto). destruct (Rltb 0 v) eqn:D.
    - apply Rltb_spec in D. rewrite in_removed, H1. split; [intros [H N]; repeat split; try tauto; intros; contradiction|]. intros H. split; [tauto|]. intros ->. destruct H as (_ & _ & _ & _ & _ & _ & H). now apply H.
    - apply Rltb_false in D. rewrite H1. assert (~ 0 < v) by lra. tauto. }
  destruct (existsb (String.eqb "dg") args) eqn:ED; cbn [andb].
  - apply known_in in ED. destruct (existsb (String.eqb "effective_dy") args) eqn:EE; cbn [negb].
    + apply known_in in EE. rewrite H2. split; [tauto|]. intros [H|[-> _]]; [exact H|]. repeat split; try discriminate. exact EE.
    + rewrite in_app_iff, H2. cbn [In]. split; [intros [H|[<-|[]]]; [now left|right; auto]|]. intros [H|[-> _]]; [now left|right; now left].
  - assert (ND : ~ In "dg" args) by (intros I; apply known_in in I; congruence). rewrite H2. tauto.
Qed.

Theorem C48_pdf_explicit_settings_survive :
  forall (args : list string) (o o' : obj) r, pdf_defaultvars L args o = (o', r) ->
    same_data o o' /\
    (forall k, ~ In k pdf_vars -> o_attr o' k = o_attr o k) /\
    (forall k, ~ In k args -> ~ (k = "effective_dy" /\ In "dg" args) -> ~ incomplete k (o_attr o k) -> o_attr o' k = o_attr o k).
Proof.
  intros args o o' r E. unfold pdf_defaultvars in E. destruct (seq_steps _ o) as [o1 r1] eqn:E1.
  destruct (seq_keeps args _ _ (pdf_touches args) o o1 r1 E1) as (A1 & B1 & C1).
  assert (PB : forall k, ~ In k pdf_vars -> ~ In k pdf_order /\ ~ In k base_vars).
  { intros k N. split; intros I; apply N; unfold pdf_vars, pdf_order, base_vars in *; cbn in *; intuition. }
  destruct r1 as [[]|e].
  - destruct (C48_explicit_settings_survive _ o1 o' r E) as (A2 & B2 & C2). split; [eapply same_data_trans; eauto|]. split.
    + intros k N. destruct (PB k N). rewrite B2, B1; auto.
    + intros k N1 N2 N3. rewrite C2; [now apply C1| |rewrite C1 by assumption; exact N3].
      intros I. apply in_pdf_nargs in I as [I|I]; [tauto|contradiction].
  - injection E as <- _. split; [exact A1|]. split; [|intros k N1 _ N3; now apply C1]. intros k N. apply B1. now apply PB.
Qed.

(** The value qmax gets when it is not given: reported by the PDF, else found in the data, else 0. *)
Definition preferred_qmax (o : obj) : value :=
  match o_attr o "qmax_reportedbypdf", o_attr o "qmax_fromdata" with
  | VNone, VNone => VNum 0
  | VNone, v => v
  | v, _ => v
  end.

Theorem C48_pdf_documented_defaults :
  forall (args : list string) (o o' : obj) (x0 : R) (rest : list R), let x := (x0 :: rest)%list in
    o_x o = Some x -> pdf_defaultvars L args o = (o', Ok tt) ->
    (forall k, In k pdf_vars -> ~ incomplete k (o_attr o' k)) /\
    (o_attr o "qmax" = VNone \/ In "qmax" args -> o_attr o' "qmax" = preferred_qmax o) /\
    (o_attr o "nyquist" = VNone \/ In "nyquist" args ->
       exists q, o_attr o' "qmax" = VNum q /\ exists b, o_attr o' "nyquist" = VBool b /\ (b = true <-> 0 < q)) /\
    (o_attr o "scale" = VNone \/ In "scale" args -> o_attr o' "scale" = VBool false) /\
    (o_attr o "supersample" = VNone \/ In "supersample" args -> o_attr o' "supersample" = VNum 4) /\
    (o_attr o "cres" = VNone \/ In "cres" args ->
       exists q, o_attr o' "qmax" = VNum q /\
         (0 < q -> o_attr o' "cres" = VNum (PI / q)) /\ (q <= 0 -> o_attr o' "cres" = VNum (4 * data_span x / INR (length x)))) /\
    (o_attr o "pf" = VNone \/ In "pf" args -> o_attr o' "pf" = VPf [gor L (7 / 10)]) /\
    (o_attr o "effective_dy" = VNone \/ In "effective_dy" args \/ In "dg" args -> o_attr o' "effective_dy" = VArr (crude_dy o x)) /\
    (o_attr o "rng" = VNone \/ In "rng" args -> o_attr o' "rng" = VRng (Some x0) (Some (last x x0))) /\
    (o_attr o "baseline" = VNone \/ In "baseline" args -> o_attr o' "baseline" = VBase (zero_bl L)) /\
    (o_attr o "error_method" = VNone \/ In "error_method" args -> o_attr o' "error_method" = VErr (aic L)) /\
    (o_attr o "initial_peaks" = VNone \/ In "initial_peaks" args -> o_attr o' "initial_peaks" = VPeaks (no_peaks L)).
Proof.
  intros args o o' x0 rest x OX E. unfold pdf_defaultvars in E. destruct (seq_steps _ o) as [p r1] eqn:E1. destruct r1 as [[]|e]; [|discriminate].
  destruct (seq_keeps args _ _ (pdf_touches args) o p _ E1) as (DA & DB & _).
  assert (PX : o_x p = Some x) by (destruct DA; congruence).
  assert (CD : crude_dy p x = crude_dy o x) by (unfold crude_dy; destruct DA as (_ & -> & _ & ->); reflexivity).
  destruct (C48_documented_defaults _ p o' x0 rest PX E) as (NI & KC & KE & _ & KP & KR & _ & KB & KM & KI).
  destruct (C48_explicit_settings_survive _ p o' _ E) as (_ & S1 & S2).
  (* the six PDF steps *)
  rewrite seq_steps_cons in E1. destruct (step_qmax args o) as [o1 [[]|e]] eqn:Q1; [|discriminate].
  rewrite seq_steps_cons in E1. destruct (step_nyquist args o1) as [o2 [[]|e]] eqn:Q2; [|discriminate].
  rewrite seq_steps_cons in E1. destruct (step_const "scale" _ args o2) as [o3 [[]|e]] eqn:Q3; [|discriminate].
  rewrite seq_steps_cons in E1. destruct (step_const "supersample" _ args o3) as [o4 [[]|e]] eqn:Q4; [|discriminate].
  rewrite seq_steps_cons in E1. destruct (step_pdfcres args o4) as [o5 [[]|e]] eqn:Q5; [|discriminate].
  rewrite seq_steps_cons in E1. destruct (step_const "pf" _ args o5) as [o6 [[]|e]] eqn:Q6; [|discriminate].
  injection E1 as ->.
  destruct (touches_qmax _ _ _ _ Q1) as (_ & T1 & _). destruct (touches_nyquist _ _ _ _ Q2) as (_ & T2 & _).
  destruct (touches_const _ _ _ _ _ _ Q3) as (_ & T3 & _). destruct (touches_const _ _ _ _ _ _ Q4) as (_ & T4 & _).
  destruct (touches_pdfcres _ _ _ _ Q5) as (_ & T5 & _). destruct (touches_const _ _ _ _ _ _ Q6) as (_ & T6 & _).
  assert (WI : forall (q : obj) k, o_attr q k = VNone \/ In k args -> wanted args q k = true).
  { intros q k [H|H]; unfold wanted; [now rewrite H|]. apply orb_true_iff. right. apply known_in. exact H. }
  assert (NQ : ~ In "qmax" base_vars /\ ~ In "nyquist" base_vars /\ ~ In "scale" base_vars /\ ~ In "supersample" base_vars).
  { unfold base_vars. cbn. intuition discriminate. }
  destruct NQ as (N1 & N2 & N3 & N4).
  assert (FQ : o_attr o' "qmax" = o_attr o1 "qmax") by (rewrite S1, T6, T5, T4, T3, T2 by (auto; discriminate); reflexivity).
  assert (FN : o_attr o' "nyquist" = o_attr o2 "nyquist") by (rewrite S1, T6, T5, T4, T3 by (auto; discriminate); reflexivity).
  assert (FS : o_attr o' "scale" = o_attr o3 "scale") by (rewrite S1, T6, T5, T4 by (auto; discriminate); reflexivity).
  assert (FU : o_attr o' "supersample" = o_attr o4 "supersample") by (rewrite S1, T6, T5 by (auto; discriminate); reflexivity).
  assert (GQ : o_attr p "qmax" = o_attr o' "qmax") by (rewrite S1 by exact N1; reflexivity).
  assert (AQ : o_attr o4 "qmax" = o_attr o' "qmax") by (rewrite FQ, T4, T3, T2 by discriminate; reflexivity).
  assert (INC : forall k (v : value), k <> "effective_dy" -> k <> "rng" -> k <> "baseline" -> v <> VNone -> ~ incomplete k v).
  { intros k v K1 K2 K3 NV [H|[(H & _)|[(H & _)|(H & _)]]]; contradiction. }
  assert (C1 : (o_attr o "qmax" = VNone \/ In "qmax" args -> o_attr o1 "qmax" = preferred_qmax o) /\ o_attr o1 "qmax" <> VNone).
  { unfold step_qmax in Q1. destruct (wanted args o "qmax") eqn:W; injection Q1 as <-.
    - rewrite attr_same. unfold preferred_qmax.
      destruct (o_attr o "qmax_reportedbypdf"); destruct (o_attr o "qmax_fromdata"); (split; [reflexivity|discriminate]).
    - split; [intros H; apply WI in H; congruence|]. now apply wanted_false in W. }
  assert (C2 : (o_attr o "nyquist" = VNone \/ In "nyquist" args -> exists q, o_attr o1 "qmax" = VNum q /\ exists b, o_attr o2 "nyquist" = VBool b /\ (b = true <-> 0 < q)) /\ o_attr o2 "nyquist" <> VNone).
  { unfold step_nyquist in Q2. destruct (wanted args o1 "nyquist") eqn:W.
    - destruct (o_attr o1 "qmax") as [|q| | | | | | | | | |]; try discriminate. cbn [posnum] in Q2. injection Q2 as <-. rewrite attr_same. split; [|discriminate].
      intros _. exists q. split; [reflexivity|]. exists (Rltb 0 q). split; [reflexivity|]. apply Rltb_spec.
    - injection Q2 as <-. rewrite (T1 "nyquist") by discriminate. destruct (wanted_false _ _ _ W) as [W1 W2]. rewrite (T1 "nyquist") in W1 by discriminate. split; [|exact W1]. intros [H|H]; contradiction. }
  assert (C3 : (o_attr o "scale" = VNone \/ In "scale" args -> o_attr o3 "scale" = VBool false) /\ o_attr o3 "scale" <> VNone).
  { unfold step_const in Q3. destruct (wanted args o2 "scale") eqn:W; injection Q3 as <-; [rewrite attr_same; split; [reflexivity|discriminate]|].
    destruct (wanted_false _ _ _ W) as [W1 W2]. split; [|exact W1]. rewrite T2, T1 in * by discriminate. intros [H|H]; contradiction. }
  assert (C4 : (o_attr o "supersample" = VNone \/ In "supersample" args -> o_attr o4 "supersample" = VNum 4) /\ o_attr o4 "supersample" <> VNone).
  { unfold step_const in Q4. destruct (wanted args o3 "supersample") eqn:W; injection Q4 as <-; [rewrite attr_same; split; [reflexivity|discriminate]|].
    destruct (wanted_false _ _ _ W) as [W1 W2]. split; [|exact W1]. rewrite T3, T2, T1 in * by discriminate. intros [H|H]; contradiction. }
  assert (C5 : o_attr o "cres" = VNone \/ In "cres" args -> exists q, o_attr o' "qmax" = VNum q /\
     (0 < q -> o_attr o' "cres" = VNum (PI / q)) /\ (q <= 0 -> o_attr o' "cres" = VNum (4 * data_span x / INR (length x)))).
  { intros H. unfold step_pdfcres in Q5.
    assert (H4 : o_attr o4 "cres" = o_attr o "cres") by (rewrite T4, T3, T2, T1 by discriminate; reflexivity).
    assert (W : wanted args o4 "cres" = true) by (apply WI; rewrite H4; exact H). rewrite W, AQ in Q5.
    destruct (o_attr o' "qmax") as [|q| | | | | | | | | |] eqn:VQ; try discriminate. exists q. split; [reflexivity|]. destruct (Rltb 0 q) eqn:D; injection Q5 as <-.
    - apply Rltb_spec in D. split; [|intros; lra]. intros _.
      assert (G : o_attr p "cres" = VNum (PI / q)) by (rewrite T6 by discriminate; apply attr_same). rewrite S2; [exact G| |rewrite G; apply INC; discriminate].
      intros I. apply in_pdf_nargs in I as [I|[I _]]; [|discriminate]. destruct I as (_ & _ & _ & _ & _ & _ & I). specialize (I eq_refl). rewrite GQ in I. contradiction.
    - apply Rltb_false in D. split; [intros; lra|]. intros _. apply KC. destruct H as [H|H]; [left; rewrite T6, H4 by discriminate; exact H|right].
      apply in_pdf_nargs. left. repeat split; try discriminate; [exact H|]. intros _. rewrite GQ. lra. }
  assert (C6 : (o_attr o "pf" = VNone \/ In "pf" args -> o_attr o' "pf" = VPf [gor L (7 / 10)])).
  { intros H. assert (G : o_attr p "pf" = VPf [gor L (7 / 10)]).
    { unfold step_const in Q6. assert (W : wanted args o5 "pf" = true) by (apply WI; rewrite T5, T4, T3, T2, T1 by discriminate; exact H).
      rewrite W in Q6. injection Q6 as <-. apply attr_same. }
    rewrite S2; [exact G| |rewrite G; apply INC; discriminate]. intros I. apply in_pdf_nargs in I as [I|[I _]]; [tauto|discriminate]. }
  assert (NA : forall k, In k args -> k <> "qmax" -> k <> "nyquist" -> k <> "scale" -> k <> "supersample" -> k <> "pf" -> k <> "cres" -> In k (pdf_nargs args p)).
  { intros k I K1 K2 K3 K4 K5 K6. apply in_pdf_nargs. left. repeat split; try assumption. intros. contradiction. }
  assert (PO : forall k, k <> "qmax" -> k <> "nyquist" -> k <> "scale" -> k <> "supersample" -> k <> "pf" -> k <> "cres" -> o_attr p k = o_attr o k).
  { intros k K1 K2 K3 K4 K5 K6. apply DB. unfold pdf_order. cbn. intuition congruence. }
  split.
  { intros k Hk. unfold pdf_vars in Hk. apply in_app_or in Hk as [Hk|Hk]; [now apply NI|]. cbn in Hk.
    destruct Hk as [<-|[<-|[<-|[<-|[]]]]]; (apply INC; [discriminate|discriminate|discriminate|]); [rewrite FQ|rewrite FU|rewrite FN|rewrite FS]; tauto. }
  split; [rewrite FQ; tauto|]. split; [rewrite FQ, FN; tauto|]. split; [rewrite FS; tauto|]. split; [rewrite FU; tauto|]. split; [exact C5|]. split; [exact C6|].
  split.
  { rewrite <- CD. intros [H|[H|H]]; apply KE; [left; rewrite PO by discriminate; exact H|right; apply NA; try discriminate; exact H|right].
    apply in_pdf_nargs. right. auto. }
  split. { intros [H|H]; apply KR; [left; rewrite PO by discriminate; exact H|right; apply NA; try discriminate; exact H]. }
  split. { intros [H|H]; apply KB; [left; rewrite PO by discriminate; exact H|right; apply NA; try discriminate; exact H]. }
  split. { intros [H|H]; apply KM; [left; rewrite PO by discriminate; exact H|right; apply NA; try discriminate; exact H]. }
  intros [H|H]; apply KI; [left; rewrite PO by discriminate; exact H|right; apply NA; try discriminate; exact H].
Qed.

Theorem C48_pdf_idempotent :
  forall (args : list string) (o o' : obj) (x0 : R) (rest : list R),
    o_x o = Some (x0 :: rest)%list -> pdf_defaultvars L args o = (o', Ok tt) -> pdf_defaultvars L [] o' = (o', Ok tt).
Proof.
  intros args o o' x0 rest OX E. destruct (C48_pdf_documented_defaults args o o' x0 rest OX E) as (NI & _).
  assert (WF : forall k, In k pdf_vars -> wanted [] o' k = false) by (intros k Hk; apply wanted_no; [intros []|now apply NI]).
  assert (ID : defaultvars L [] o' = (o', Ok tt)).
  { unfold pdf_defaultvars in E. destruct (seq_steps _ o) as [p r1] eqn:E1. destruct r1 as [[]|e]; [|discriminate].
    destruct (seq_keeps args _ _ (pdf_touches args) o p _ E1) as (DA & _ & _). destruct DA as (DX & _).
    eapply C48_idempotent; [rewrite DX; exact OX|exact E]. }
  unfold pdf_defaultvars.
  assert (SS : seq_steps [step_qmax []; step_nyquist []; step_const "scale" (VBool false) [];
                   step_const "supersample" (VNum 4) []; step_pdfcres []; step_const "pf" (VPf [gor L (7 / 10)]) []] o' = (o', Ok tt)).
  { rewrite seq_steps_cons. unfold step_qmax. rewrite WF by (cbn; tauto).
    rewrite seq_steps_cons. unfold step_nyquist. rewrite WF by (cbn; tauto).
    rewrite seq_steps_cons. unfold step_const at 1. rewrite WF by (cbn; tauto).
    rewrite seq_steps_cons. unfold step_const at 1. rewrite WF by (cbn; tauto).
    rewrite seq_steps_cons. unfold step_pdfcres. rewrite WF by (cbn; tauto).
    rewrite seq_steps_cons. unfold step_const at 1. rewrite WF by (cbn; tauto). reflexivity. }
  rewrite SS. assert (NN : pdf_nargs [] o' = []%list); [|rewrite NN; exact ID].
  unfold pdf_nargs. cbn. destruct (o_attr o' "qmax"); try reflexivity. destruct (Rltb 0 v); reflexivity.
Qed.

Definition num_or_none (v : value) : Prop := v = VNone \/ exists q, v = VNum q.
Theorem C48_pdf_succeeds :
  forall (args : list string) (o : obj) (x0 : R) (rest : list R),
    o_x o = Some (x0 :: rest)%list -> o_y o <> []%list -> rng_typed (o_attr o "rng") ->
    (forall f, o_attr o "baseline" <> VBaseFn f) ->
    num_or_none (o_attr o "qmax") -> num_or_none (o_attr o "qmax_reportedbypdf") -> num_or_none (o_attr o "qmax_fromdata") ->
    exists o', pdf_defaultvars L args o = (o', Ok tt).
Proof.
  intros args o x0 rest OX OY OR OB HQ HR HF.
  assert (P : exists p, seq_steps [step_qmax args; step_nyquist args; step_const "scale" (VBool false) args;
                   step_const "supersample" (VNum 4) args; step_pdfcres args; step_const "pf" (VPf [gor L (7 / 10)]) args] o = (p, Ok tt)).
  { rewrite seq_steps_cons.
    assert (Q1 : exists o1 q, step_qmax args o = (o1, Ok tt) /\ o_attr o1 "qmax" = VNum q).
    { unfold step_qmax. destruct (wanted args o "qmax") eqn:W.
      - eexists. destruct HR as [HR|[q HR]], HF as [HF|[q' HF]]; eexists; (split; [reflexivity|]); rewrite attr_same, HR, ?HF; reflexivity.
      - apply wanted_false in W as [W _]. destruct HQ as [HQ|[q HQ]]; [contradiction|]. exists o, q. auto. }
    destruct Q1 as (o1 & q & -> & V1). set (I := fun q' : obj => o_attr q' "qmax" = VNum q).
    destruct (seq_ok [step_nyquist args; step_const "scale" (VBool false) args; step_const "supersample" (VNum 4) args;
       step_pdfcres args; step_const "pf" (VPf [gor L (7 / 10)]) args] I) with (o := o1) as (p & E & _); [|exact V1|exists p; exact E].
    intros s Hs u Hu. unfold I in *. cbn in Hs. destruct Hs as [<-|[<-|[<-|[<-|[<-|[]]]]]].
    - unfold step_nyquist. rewrite Hu. cbn [posnum]. destruct (wanted args u "nyquist"); eexists; (split; [reflexivity|]); [rewrite attr_other by discriminate|]; exact Hu.
    - unfold step_const. destruct (wanted args u "scale"); eexists; (split; [reflexivity|]); [rewrite attr_other by discriminate|]; exact Hu.
    - unfold step_const. destruct (wanted args u "supersample"); eexists; (split; [reflexivity|]); [rewrite attr_other by discriminate|]; exact Hu.
    - unfold step_pdfcres. rewrite Hu. destruct (wanted args u "cres"); [|eexists; (split; [reflexivity|]); exact Hu].
      destruct (Rltb 0 q); eexists; (split; [reflexivity|]); [rewrite attr_other by discriminate|]; exact Hu.
    - unfold step_const. destruct (wanted args u "pf"); eexists; (split; [reflexivity|]); [rewrite attr_other by discriminate|]; exact Hu. }
  destruct P as (p & E). destruct (seq_keeps args _ _ (pdf_touches args) o p _ E) as ((D1 & D2 & _) & DB & _).
  unfold pdf_defaultvars. rewrite E. apply (C48_succeeds _ p x0 rest).
  - rewrite D1. exact OX.
  - rewrite D2. exact OY.
  - rewrite DB; [exact OR|]. unfold pdf_order. cbn. intuition discriminate.
  - rewrite DB; [exact OB|]. unfold pdf_order. cbn. intuition discriminate.
Qed.

(** A qmax that is a text: the comparison with 0 raises, and nothing has changed. *)
Theorem C48_pdf_text_qmax :
  forall (args : list string) (o : obj) t, o_attr o "qmax" = VStr t -> ~ In "qmax" args ->
    o_attr o "nyquist" = VNone \/ In "nyquist" args -> pdf_defaultvars L args o = (o, Err TypeError).
Proof.
  intros args o t Q N H. unfold pdf_defaultvars. rewrite seq_steps_cons. unfold step_qmax.
  assert (W : wanted args o "qmax" = false). { apply wanted_no; [exact N|]. unfold incomplete. rewrite Q. intuition (try discriminate). all: try (destruct H0 as (? & ?); intuition discriminate). }
  rewrite W, seq_steps_cons. unfold step_nyquist.
  assert (W2 : wanted args o "nyquist" = true).
  { unfold wanted. destruct H as [->|H]; [reflexivity|]. apply Bool.orb_true_iff. right. apply existsb_exists. exists "nyquist". split; [exact H|apply String.eqb_refl]. }
  rewrite W2, Q. reflexivity.
Qed.

(** A baseline function together with a range that misses the data: the IndexError of
    getrangeslice escapes from defaultvars although the call is legitimate. *)
Theorem C48_range_outside_data_refuted :
  forall (o : obj) (x0 : R) (rest : list R) (lo hi : R) (f : BF),
    o_x o = Some (x0 :: rest)%list -> StronglySorted Rle (x0 :: rest)%list ->
    (forall k, In k base_vars -> o_attr o k <> VNone) ->
    (forall v, o_attr o "effective_dy" <> VNum v) ->
    o_attr o "rng" = VRng (Some lo) (Some hi) -> last (x0 :: rest)%list x0 < lo ->
    o_attr o "baseline" = VBaseFn f ->
    defaultvars L [] o = (o, Err IndexError).
Proof.
  intros o x0 rest lo hi f OX HS HK HE HR HL HB.
  assert (WF : forall k, In k base_vars -> wanted [] o k = false).
  { intros k Hk. unfold wanted. cbn [existsb]. rewrite orb_false_r. specialize (HK k Hk). destruct (o_attr o k); try reflexivity. contradiction. }
  unfold defaultvars.
  rewrite seq_steps_cons. unfold step_cres. rewrite WF by (cbn; tauto).
  rewrite seq_steps_cons. unfold step_edy. rewrite WF by (cbn; tauto).
  assert (S2 : match o_attr o "effective_dy" with
       | VNum d => if Rltb 0 d then with_x o (fun x => (setattr o "effective_dy" (VArr (repeat d (length x))), Ok tt)) else (o, Ok tt)
       | _ => (o, Ok tt) end = (o, Ok tt)).
  { destruct (o_attr o "effective_dy") eqn:V; try reflexivity. exfalso. exact (HE v eq_refl). }
  rewrite S2. rewrite seq_steps_cons. unfold step_pf. rewrite WF by (cbn; tauto).
  rewrite seq_steps_cons. unfold step_rng. rewrite WF by (cbn; tauto). rewrite HR.
  rewrite seq_steps_cons. unfold step_estimate, with_x. rewrite HB, HR, OX.
  rewrite (C88_range_outside_data_refuted x0 rest lo hi HS (or_introl HL)). reflexivity.
Qed.
End VarsProps.

Print Assumptions C48_explicit_settings_survive.
Print Assumptions C48_documented_defaults.
Print Assumptions C48_idempotent.
Print Assumptions C48_succeeds.
Print Assumptions C47_known_names_are_stored.
Print Assumptions C47_unknown_name_is_rejected.
Print Assumptions C47_clear.
Print Assumptions C47_pdf_checks_are_atomic.
Print Assumptions C47_pdf_aliases.
Print Assumptions C48_pdf_explicit_settings_survive.
Print Assumptions C48_pdf_documented_defaults.
Print Assumptions C48_pdf_idempotent.
Print Assumptions C48_pdf_succeeds.
Print Assumptions C48_pdf_text_qmax.
Print Assumptions C48_range_outside_data_refuted.

(** *** Concrete instances *)
Section Instances.
Open Scope string_scope.
Let xlib : lib R unit R unit unit := mkLib (fun w => w) 0 tt tt (fun _ _ _ => Err EstimationError) (fun _ _ => Ok 20).
Let xobj (a : string -> value R unit R unit unit unit) : obj R unit R unit unit unit := mkObj a (Some [1; 2; 3]) [0; 1; 0] [0; 0; 0] [1; 0; 1].
Let fresh := xobj (fun _ => VNone).

(** Fresh data: both classes set every variable; the PDF class starting from a value found in the data. *)
Example C48_nonvacuous : (exists o', defaultvars xlib [] fresh = (o', Ok tt) /\ o_attr o' "rng" = VRng (Some 1) (Some 3) /\ o_attr o' "pf" = VPf [3 - 1]) /\
  (exists o', pdf_defaultvars xlib ["cres"] (setattr fresh "qmax_fromdata" (VNum 20)) = (o', Ok tt) /\ o_attr o' "qmax" = VNum 20 /\ o_attr o' "cres" = VNum (PI / 20) /\ o_attr o' "nyquist" = VBool true).
Proof.
  split.
  - destruct (C48_succeeds xlib [] fresh 1 [2; 3]) as (o' & E); [reflexivity|discriminate|left; reflexivity|discriminate|].
    exists o'. split; [exact E|]. destruct (C48_documented_defaults xlib [] fresh o' 1 [2; 3] eq_refl E) as (_ & _ & _ & _ & KP & KR & _).
    split; [rewrite KR by (left; reflexivity); reflexivity|rewrite KP by (left; reflexivity); reflexivity].
  - set (o := setattr fresh "qmax_fromdata" (VNum 20)).
    destruct (C48_pdf_succeeds xlib ["cres"] o 1 [2; 3]) as (o' & E); [reflexivity|discriminate|left; reflexivity|discriminate|left; reflexivity|left; reflexivity|right; exists 20; reflexivity|].
    exists o'. split; [exact E|]. destruct (C48_pdf_documented_defaults xlib ["cres"] o o' 1 [2; 3] eq_refl E) as (_ & KQ & KN & _ & _ & KC & _).
    specialize (KQ (or_introl eq_refl)). change (preferred_qmax o) with (@VNum R unit R unit unit unit 20) in KQ. split; [exact KQ|].
    destruct (KC (or_introl eq_refl)) as (q & Q1 & Q2 & _). rewrite KQ in Q1. injection Q1 as <-. split; [apply Q2; lra|].
    destruct (KN (or_introl eq_refl)) as (q & Q1 & b & Q3 & Q4). rewrite KQ in Q1. injection Q1 as <-. rewrite Q3. f_equal. apply Q4. lra.
Qed.

(** setvars with two known names and an unknown one between them; dg with a known name. *)
Example C47_nonvacuous :
  (exists o', setvars xlib [("cres", VNum 1); ("crse", VNum 2); ("baseline", VBase 5)] fresh = (o', Err ValueError) /\ o_attr o' "cres" = VNum 1 /\ o_attr o' "baseline" = VNone) /\
  (exists o', pdf_setvars xlib [("dg", VArr [1; 1; 1]); ("qmax", VNum 10)] fresh = (o', Ok tt) /\ o_attr o' "effective_dy" = VArr [1; 1; 1] /\ o_attr o' "qmax" = VNum 10) /\
  pdf_setvars xlib [("supersample", VNum (1/2))] fresh = (fresh, Err ValueError).
Proof.
  split; [|split].
  - destruct (C47_unknown_name_is_rejected xlib [("cres", VNum 1)] [("baseline", VBase 5)] "crse" (VNum 2) fresh) as (o' & E & _ & H1 & H2).
    + cbn. constructor; [cbn; intuition discriminate|]. constructor; [cbn; intuition discriminate|]. constructor; [intros []|constructor].
    + cbn. intros k [<-|[]]. tauto.
    + cbn. intuition discriminate.
    + exists o'. split; [exact E|]. split; [apply H1; now left|]. rewrite H2; [reflexivity|cbn; intuition discriminate].
  - set (kw := [("dg", VArr [1; 1; 1]); ("qmax", VNum 10)] : list (string * value R unit R unit unit unit)).
    set (o := setattr (setattr fresh "qmax" (VNum 10)) "effective_dy" (VArr [1; 1; 1])).
    change (exists o', pdf_defaultvars xlib [] o = (o', Ok tt) /\ o_attr o' "effective_dy" = VArr [1; 1; 1] /\ o_attr o' "qmax" = VNum 10).
    destruct (C48_pdf_succeeds xlib [] o 1 [2; 3]) as (o' & E); [reflexivity|discriminate|left; reflexivity|discriminate|right; exists 10; reflexivity|left; reflexivity|left; reflexivity|].
    exists o'. split; [exact E|]. destruct (C48_pdf_explicit_settings_survive xlib [] o o' _ E) as (_ & _ & K).
    split; [rewrite K|rewrite K].
    + reflexivity.
    + intros [].
    + intros [_ []].
    + cbn. intros [H|[(_ & d & H & _)|[(H & _)|(H & _)]]]; discriminate.
    + reflexivity.
    + intros [].
    + intros [_ []].
    + cbn. intros [H|[(H & _)|[(H & _)|(H & _)]]]; discriminate.
  - apply (C47_pdf_checks_are_atomic xlib [("supersample", VNum (1/2))] fresh) with (s := 1/2); [|cbn; intuition discriminate|cbn; intuition discriminate|now left|lra].
    constructor; [intros []|constructor].
Qed.
End Instances.

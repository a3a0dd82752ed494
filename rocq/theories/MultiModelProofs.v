(** Lemmas about MultiModel.v. *)
From Coq Require Import Reals Lra String Sorted Permutation.
From Verif Require Import Prelude Evaluators EvaluatorsProps MultiModel.
Open Scope R_scope.

(** *** Dictionaries and monadic maps *)
Lemma dset_same {A} (d : dict A) k v : dset d k v k = Some v.
Proof. unfold dset. destruct (Req_EM_T k k); [reflexivity|contradiction]. Qed.
Lemma dset_other {A} (d : dict A) k v k' : k' <> k -> dset d k v k' = d k'.
Proof. unfold dset. destruct (Req_EM_T k' k); [contradiction|reflexivity]. Qed.
Lemma tabulate_spec {A} (f : R -> result A) : forall gs d d', tabulate f gs d = Ok d' ->
  (forall k, In k gs -> exists v, f k = Ok v /\ d' k = Some v) /\ (forall k, ~ In k gs -> d' k = d k).
Proof.
  induction gs as [|g gs IH]; intros d d' E; cbn [tabulate] in E.
  - injection E as <-. split; [intros k []|reflexivity].
  - destruct (f g) as [v|e] eqn:FG; cbn [bind] in E; [|discriminate]. destruct (IH _ _ E) as [H1 H2]. split.
    + intros k [<-|I]; [|now apply H1]. destruct (in_dec Req_EM_T g gs) as [I|N]; [now apply H1|].
      exists v. split; [exact FG|]. rewrite H2 by exact N. apply dset_same.
    + intros k N. rewrite H2 by (intros I; apply N; now right). apply dset_other. intros ->. apply N. now left.
Qed.
Lemma tabulate_ok {A} (f : R -> result A) : forall gs d, (forall k, In k gs -> exists v, f k = Ok v) -> exists d', tabulate f gs d = Ok d'.
Proof.
  induction gs as [|g gs IH]; intros d H; cbn [tabulate]; [eauto|]. destruct (H g (or_introl eq_refl)) as [v ->]. cbn [bind]. apply IH. intros k I. apply H. now right.
Qed.
Lemma map_result_ok {A B} (f : A -> result B) (g : A -> B) l : (forall a, In a l -> f a = Ok (g a)) -> map_result f l = Ok (map g l).
Proof.
  induction l as [|a l IH]; intros H; [reflexivity|]. cbn [map_result map]. rewrite (H a) by now left. cbn [bind]. rewrite IH by (intros; apply H; now right). reflexivity.
Qed.
Lemma map_result_inv {A B} (f : A -> result B) : forall l l', map_result f l = Ok l' -> Forall2 (fun a b => f a = Ok b) l l'.
Proof.
  induction l as [|a l IH]; intros l' E; cbn [map_result] in E; [injection E as <-; constructor|].
  destruct (f a) as [b|] eqn:FA; cbn [bind] in E; [|discriminate]. destruct (map_result f l) as [bs|]; cbn [bind] in E; [|discriminate].
  injection E as <-. constructor; auto.
Qed.
Lemma pyget_nth {A} (l : list A) n v : nth_error l n = Some v -> pyget l (Z.of_nat n) = Ok v.
Proof.
  intros H. unfold pyget. assert (n < length l)%nat by (apply nth_error_Some; congruence).
  destruct (Z.ltb_spec (Z.of_nat n) 0); [lia|].
  destruct (Z.ltb_spec (Z.of_nat n) 0); [lia|]. destruct (Z.leb_spec (Z.of_nat (length l)) (Z.of_nat n)); [lia|]. cbn [orb]. rewrite Nat2Z.id, H. reflexivity.
Qed.
Lemma pyget_inv {A} (l : list A) n v : pyget l (Z.of_nat n) = Ok v -> nth_error l n = Some v.
Proof.
  unfold pyget. destruct (Z.ltb_spec (Z.of_nat n) 0); [lia|]. destruct (_ || _)%bool; [discriminate|]. rewrite Nat2Z.id. destruct (nth_error l n); [congruence|discriminate].
Qed.
(** the k-th from the end *)
Lemma pyget_end {A} (l : list A) (k : nat) : pyget l (-1 - Z.of_nat k) =
  if (k <? length l)%nat then match nth_error l (length l - 1 - k) with Some v => Ok v | None => Err IndexError end else Err IndexError.
Proof.
  unfold pyget. destruct (Z.ltb_spec (-1 - Z.of_nat k) 0); [|lia].
  destruct (Nat.ltb_spec k (length l)).
  - replace (-1 - Z.of_nat k + Z.of_nat (length l))%Z with (Z.of_nat (length l - 1 - k)) by lia.
    destruct (Z.ltb_spec (Z.of_nat (length l - 1 - k)) 0); [lia|].
    destruct (Z.leb_spec (Z.of_nat (length l)) (Z.of_nat (length l - 1 - k))); [lia|]. cbn [orb]. rewrite Nat2Z.id. reflexivity.
  - destruct (Z.ltb_spec (-1 - Z.of_nat k + Z.of_nat (length l)) 0); [reflexivity|lia].
Qed.

(** *** k-th best *)
(** [a] is a k-th best element of [all]: at most k elements have a higher score, and more
    than k have at least its score (itself included). *)
Definition nth_best {A} (score : A -> R) (all : list A) (k : nat) (a : A) : Prop :=
  In a all /\ (length (filter (fun b => Rltb (score a) (score b)) all) <= k)%nat /\
  (k < length (filter (fun b => Rleb (score a) (score b)) all))%nat.
Lemma filter_perm {A} (f : A -> bool) l l' : Permutation l l' -> length (filter f l) = length (filter f l').
Proof.
  induction 1 as [|a l l' H IH|a b l|]; cbn [filter]; [reflexivity|destruct (f a); cbn; lia|destruct (f a), (f b); reflexivity|lia].
Qed.
Lemma filter_length_le' {A} (f : A -> bool) l : (length (filter f l) <= length l)%nat.
Proof. induction l as [|a l IH]; cbn; [lia|]. destruct (f a); cbn; lia. Qed.
Lemma filter_none {A} (f : A -> bool) l : (forall a, In a l -> f a = false) -> filter f l = [].
Proof. induction l as [|a l IH]; intros H; [reflexivity|]. cbn. rewrite (H a) by now left. apply IH. intros; apply H; now right. Qed.
Lemma filter_all {A} (f : A -> bool) l : (forall a, In a l -> f a = true) -> filter f l = l.
Proof. induction l as [|a l IH]; intros H; [reflexivity|]. cbn. rewrite (H a) by now left. f_equal. apply IH. intros; apply H; now right. Qed.
Lemma ss_app {A} (R' : A -> A -> Prop) l1 l2 : StronglySorted R' (l1 ++ l2) -> forall a b, In a l1 -> In b l2 -> R' a b.
Proof.
  induction l1 as [|c l1 IH]; intros H a b Ha Hb; [destruct Ha|]. cbn in H. inversion H as [|? ? HS HF]; subst. destruct Ha as [<-|Ha].
  - rewrite Forall_forall in HF. apply HF, in_or_app. now right.
  - now apply IH.
Qed.
Lemma ss_app_r {A} (R' : A -> A -> Prop) l1 l2 : StronglySorted R' (l1 ++ l2) -> StronglySorted R' l2.
Proof. induction l1 as [|c l1 IH]; intros H; [exact H|]. inversion H; subst. auto. Qed.
Lemma kth_from_end_best {A} (score : A -> R) (l all : list A) k a :
  StronglySorted (fun x y => score x <= score y) l -> Permutation l all -> (k < length l)%nat ->
  nth_error l (length l - 1 - k) = Some a -> nth_best score all k a.
Proof.
  intros HS HP HK HN. destruct (nth_error_split _ _ HN) as (l1 & l2 & E & L1).
  assert (L2 : length l2 = k) by (rewrite E in HK, L1; rewrite app_length in *; cbn [length] in *; lia). split; [|split].
  - eapply Permutation_in; [exact HP|]. eapply nth_error_In. exact HN.
  - rewrite <- (filter_perm _ _ _ HP), E, filter_app, app_length, filter_none.
    + cbn [length filter]. assert (X : Rltb (score a) (score a) = false).
      { destruct (Rltb (score a) (score a)) eqn:Y; [apply Rltb_spec in Y; lra|reflexivity]. }
      rewrite X. rewrite <- L2. apply filter_length_le'.
    + intros b Hb. destruct (Rltb (score a) (score b)) eqn:Y; [|reflexivity]. apply Rltb_spec in Y.
      assert (score b <= score a) by (rewrite E in HS; apply (ss_app _ _ _ HS); [exact Hb|now left]). lra.
  - rewrite <- (filter_perm _ _ _ HP), E, filter_app, app_length.
    assert (X : filter (fun b => Rleb (score a) (score b)) (a :: l2) = a :: l2).
    { apply filter_all. intros b Hb. apply Rleb_spec. rewrite E in HS. apply ss_app_r in HS. inversion HS as [|? ? _ HF]; subst.
      destruct Hb as [<-|Hb]; [lra|]. rewrite Forall_forall in HF. now apply HF. }
    rewrite X. cbn [length]. lia.
Qed.
(** the best: nobody is better *)
Lemma nth_best_0 {A} (score : A -> R) all a : nth_best score all 0 a <-> In a all /\ forall b, In b all -> score b <= score a.
Proof.
  split.
  - intros (I & H & _). split; [exact I|]. intros b Hb. destruct (Rle_lt_dec (score b) (score a)) as [|G]; [assumption|].
    assert (J : In b (filter (fun b => Rltb (score a) (score b)) all)) by (apply filter_In; split; [exact Hb|now apply Rltb_spec]).
    destruct (filter _ all); [destruct J|cbn in H; lia].
  - intros (I & H). split; [exact I|]. split.
    + rewrite filter_none; [cbn; lia|]. intros b Hb. destruct (Rltb (score a) (score b)) eqn:Y; [|reflexivity]. apply Rltb_spec in Y. specialize (H b Hb). lra.
    + assert (J : In a (filter (fun b => Rleb (score a) (score b)) all)) by (apply filter_In; split; [exact I|apply Rleb_spec; lra]).
      destruct (filter _ all); [destruct J|cbn; lia].
Qed.
Lemma nth_best_ext {A} (f g : A -> R) all k a : (forall x y, In x all -> In y all -> (f x < f y <-> g x < g y)) -> nth_best f all k a -> nth_best g all k a.
Proof.
  intros H (I & H1 & H2). split; [exact I|].
  assert (E1 : filter (fun b => Rltb (f a) (f b)) all = filter (fun b => Rltb (g a) (g b)) all).
  { apply filter_ext_in. intros b Hb. apply eq_true_iff_eq. rewrite !Rltb_spec. auto. }
  assert (E2 : filter (fun b => Rleb (f a) (f b)) all = filter (fun b => Rleb (g a) (g b)) all).
  { apply filter_ext_in. intros b Hb. apply eq_true_iff_eq. rewrite !Rleb_spec. pose proof (H b a Hb I). split; intros; apply Rnot_lt_le; intros G; apply H0 in G; lra. }
  rewrite <- E1, <- E2. auto.
Qed.

(** *** makeaics *)
Definition chi2 (m : model) (dg : R) : R := Rsum (map (fun p => ((fst p - snd p) / dg) ^ 2) (m_points m)).
Definition penalty (em : method) (m : model) : R :=
  match em with AICc => penalty_AICc (Z.of_nat (m_free m)) (Z.of_nat (length (m_points m))) | _ => 2 * INR (m_free m) end.
(** The criterion of model m for uncertainty dg, from its definition. *)
Definition aic_value (em : method) (m : model) (dg : R) : R := chi2 m dg + penalty em m.
Definition aic_entry (em : method) (dg : R) (m : model) : evaluator := mkEv em false (Some (aic_value em m dg)) (Some (chi2 m dg)).

Lemma chi_cluster m s : s <> 0 -> chi_squared (points (cluster_fit m s)) = chi2 m s.
Proof.
  intros H. unfold chi_squared, chi2, cluster_fit, Rsum. cbn [points]. f_equal. rewrite map_map. apply map_ext. intros [v o]. cbn [fst snd]. field. exact H.
Qed.
Lemma chi2_rescale m dg0 dg : dg0 <> 0 -> dg <> 0 -> chi2 m dg0 * (dg0 / dg) ^ 2 = chi2 m dg.
Proof.
  intros H0 H. unfold chi2, Rsum. induction (m_points m) as [|[v o] l IH]; cbn [map fold_right fst snd]; [ring|]. rewrite <- IH. field. auto.
Qed.
Lemma eval_pen em m s c : em = AIC \/ em = AICc ->
  evaluate (mkEv em false None (Some c)) (cluster_fit m s) false 0 = (mkEv em false (Some (c + penalty em m)) (Some c), Ok (c + penalty em m)).
Proof.
  intros HM. unfold evaluate. cbn [npars_free cluster_fit chisq emethod higher_is_better]. rewrite Z.add_0_r.
  destruct (Z.ltb_spec (Z.of_nat (m_free m)) 0); [lia|]. unfold size. cbn [points cluster_fit]. rewrite map_length.
  destruct HM as [-> | ->]; cbn [minpoints parpenalty penalty].
  - rewrite mult_IZR, <- INR_IZR_INZ. reflexivity.
  - set (n := Z.of_nat (length (m_points m))). set (k := Z.of_nat (m_free m)).
    assert (E : (if (n <? k + 2)%Z then (k + 2)%Z else n) = Z.max n (k + 2)).
    { destruct (Z.ltb_spec n (k + 2)); lia. }
    rewrite E. unfold penalty_AICc. reflexivity.
Qed.
Lemma eval_new em m s : em = AIC \/ em = AICc -> s <> 0 ->
  evaluate (new_evaluator em false) (cluster_fit m s) false 0 = (mkEv em false (Some (chi2 m s + penalty em m)) (Some (chi2 m s)), Ok (chi2 m s + penalty em m)).
Proof.
  intros HM H. rewrite <- (eval_pen em m s (chi2 m s) HM). unfold evaluate, new_evaluator. cbn [chisq emethod higher_is_better npars_free cluster_fit].
  destruct (Z.ltb_spec (Z.of_nat (m_free m) + 0) 0); [lia|]. rewrite chi_cluster by exact H. reflexivity.
Qed.

Lemma rescale_spec em m dg0 : em = AIC \/ em = AICc -> dg0 <> 0 -> forall gs d, NoDup gs -> (forall g, In g gs -> g <> 0) -> (forall g, In g gs -> d g <> None) ->
  exists d', rescale_all em m dg0 (chi2 m dg0) gs d = Ok d' /\
    (forall g l, In g gs -> d g = Some l -> d' g = Some (l ++ [aic_entry em g m])) /\ (forall g, ~ In g gs -> d' g = d g).
Proof.
  intros HM H0. induction gs as [|g gs IH]; intros d ND NZ HD; cbn [rescale_all].
  - exists d. split; [reflexivity|]. split; [intros ? ? []|reflexivity].
  - inversion ND as [|? ? N1 N2]; subst. rewrite eval_pen by exact HM. cbn [bind]. unfold dappend, dget.
    destruct (d g) as [l|] eqn:DG; [|exfalso; apply (HD g); [now left|exact DG]]. cbn [bind].
    rewrite chi2_rescale by (auto; apply NZ; now left).
    destruct (IH (dset d g (l ++ [aic_entry em g m]))) as (d' & E & H1 & H2); [exact N2|intros; apply NZ; now right| |].
    + intros g' I'. rewrite dset_other by (intros ->; contradiction). apply HD. now right.
    + exists d'. split; [exact E|]. split.
      * intros g' l' [<-|I'] Dg.
        -- rewrite H2 by exact N1. rewrite dset_same. congruence.
        -- apply H1; [exact I'|]. rewrite dset_other by (intros ->; contradiction). exact Dg.
      * intros g' N'. rewrite H2 by (intros I'; apply N'; now right). apply dset_other. intros ->. apply N'. now left.
Qed.
Lemma test_models_spec em gs : em = AIC \/ em = AICc -> gs <> [] -> NoDup gs -> (forall g, In g gs -> g <> 0) ->
  forall ms d, (forall g, In g gs -> d g <> None) ->
  exists d', test_models em ms gs d = Ok d' /\ (forall g l, In g gs -> d g = Some l -> d' g = Some (l ++ map (aic_entry em g) ms)) /\ (forall g, ~ In g gs -> d' g = d g).
Proof.
  intros HM NE ND NZ. destruct gs as [|g0 gs]; [contradiction|]. clear NE. assert (Z0 : g0 <> 0) by (apply NZ; now left).
  induction ms as [|m ms IH]; intros d HD; cbn [test_models].
  - exists d. split; [reflexivity|]. split; [|reflexivity]. intros g l _ H. rewrite app_nil_r. exact H.
  - change (pyget (g0 :: gs) 0) with (@Ok R g0). cbn [bind]. rewrite eval_new by assumption. cbn [bind chisq].
    destruct (rescale_spec em m g0 HM Z0 (g0 :: gs) d ND NZ HD) as (d1 & E1 & A1 & B1). rewrite E1. cbn [bind].
    destruct (IH d1) as (d2 & E2 & A2 & B2).
    { intros g I. destruct (d g) as [l|] eqn:Dg; [rewrite (A1 g l I Dg); discriminate|exfalso; now apply (HD g)]. }
    exists d2. split; [exact E2|]. split.
    + intros g l I Dg. rewrite (A2 g _ I (A1 g l I Dg)). cbn [map]. rewrite <- app_assoc. reflexivity.
    + intros g N. rewrite B2, B1 by exact N. reflexivity.
Qed.
Lemma init_spec gs : forall d, (forall g, In g gs -> init_aics gs d g = Some []) /\ (forall g, ~ In g gs -> init_aics gs d g = d g).
Proof.
  unfold init_aics. induction gs as [|g gs IH]; intros d; cbn [fold_left]; [split; [intros ? []|reflexivity]|].
  destruct (IH (dset d g [])) as [H1 H2]. split.
  - intros g' [<-|I]; [|now apply H1]. destruct (in_dec Req_EM_T g gs) as [I|N]; [now apply H1|]. rewrite H2 by exact N. apply dset_same.
  - intros g' N. rewrite H2 by (intros I; apply N; now right). apply dset_other. intros ->. apply N. now left.
Qed.
Lemma stats_entries em g ms : stats (map (aic_entry em g) ms) = Ok (map (fun m => aic_value em m g) ms).
Proof.
  unfold stats. induction ms as [|m ms IH]; [reflexivity|]. cbn [map map_result aic_entry stat bind]. rewrite IH. reflexivity.
Qed.

(** *** Stable sort *)
Section Sorting.
Variable key : nat -> R.
Lemma insert_spec n lt : (forall i j, (i < n)%nat -> (j < n)%nat -> lt i j = Ok (Rltb (key i) (key j))) ->
  forall l x, (x < n)%nat -> (forall i, In i l -> (i < n)%nat) -> StronglySorted (fun i j => key i <= key j) l ->
  exists l', insert_sorted lt x l = Ok l' /\ Permutation l' (x :: l) /\ StronglySorted (fun i j => key i <= key j) l'.
Proof.
  intros HL. induction l as [|y l IH]; intros x Hx Hl HS; cbn [insert_sorted].
  - exists [x]. split; [reflexivity|]. split; [reflexivity|]. constructor; [constructor|constructor].
  - rewrite HL by (auto; apply Hl; now left). cbn [bind]. inversion HS as [|? ? HS' HF]; subst. destruct (Rltb (key x) (key y)) eqn:E.
    + apply Rltb_spec in E. exists (x :: y :: l). split; [reflexivity|]. split; [reflexivity|]. constructor; [exact HS|].
      constructor; [lra|]. rewrite Forall_forall in *. intros j Hj. specialize (HF j Hj). lra.
    + assert (E' : key y <= key x) by (apply Rnot_lt_le; intros G; apply Rltb_spec in G; congruence).
      destruct (IH x Hx) as (l' & -> & P & S'); [intros; apply Hl; now right|exact HS'|]. cbn [bind]. exists (y :: l'). split; [reflexivity|]. split.
      * rewrite P. apply perm_swap.
      * constructor; [exact S'|]. rewrite Forall_forall in *. intros j Hj. apply (Permutation_in _ P) in Hj. destruct Hj as [<-|Hj]; [exact E'|auto].
Qed.
Lemma sort_onto_spec n lt : (forall i j, (i < n)%nat -> (j < n)%nat -> lt i j = Ok (Rltb (key i) (key j))) ->
  forall l acc, (forall i, In i l -> (i < n)%nat) -> (forall i, In i acc -> (i < n)%nat) -> StronglySorted (fun i j => key i <= key j) acc ->
  exists l', sort_onto lt l acc = Ok l' /\ Permutation l' (l ++ acc) /\ StronglySorted (fun i j => key i <= key j) l'.
Proof.
  intros HL. induction l as [|x l IH]; intros acc Hl Ha HS; cbn [sort_onto].
  - exists acc. split; [reflexivity|]. split; [reflexivity|exact HS].
  - destruct (insert_spec n lt HL acc x) as (a' & -> & P & S'); [apply Hl; now left|exact Ha|exact HS|]. cbn [bind].
    destruct (IH a') as (l' & E & P2 & S2).
    + intros; apply Hl; now right.
    + intros i Hi. apply (Permutation_in _ P) in Hi. destruct Hi as [<-|Hi]; [apply Hl; now left|now apply Ha].
    + exact S'.
    + exists l'. split; [exact E|]. split; [|exact S2]. rewrite P2, P. cbn [app]. symmetry. apply Permutation_middle.
Qed.
End Sorting.

Lemma map_nth_seq {A} (c : list A) d : map (fun i => nth i c d) (seq 0 (length c)) = c.
Proof.
  induction c as [|a c IH]; [reflexivity|]. cbn [length seq map nth]. f_equal. rewrite <- seq_shift, map_map. exact IH.
Qed.
(** sort_class on the entries of makeaics *)
Lemma sort_class_spec em g ms c : (forall i, In i c -> (i < length ms)%nat) ->
  exists l, sort_class (map (aic_entry em g) ms) c = Ok l /\ Permutation l c /\
    StronglySorted (fun i j => forall m m', nth_error ms i = Some m -> nth_error ms j = Some m' -> aic_value em m' g <= aic_value em m g) l.
Proof.
  intros HC. unfold sort_class. set (d := mkEv em false None None).
  rewrite (map_result_ok _ (fun i => nth i (map (aic_entry em g) ms) d)).
  2:{ intros i Hi. apply pyget_nth. apply nth_error_nth'. rewrite map_length. auto. }
  cbn [bind]. set (temp := map (fun i => nth i (map (aic_entry em g) ms) d) c).
  set (val := fun i => match nth_error ms i with Some m => aic_value em m g | None => 0 end).
  assert (LT : length temp = length c) by apply map_length.
  assert (TN : forall b, (b < length c)%nat -> exists e, nth_error temp b = Some e /\ emethod e = em /\ higher_is_better e = false /\ stat e = Some (val (nth b c 0%nat))).
  { intros b Hb. assert (Ic : In (nth b c 0%nat) c) by now apply nth_In. specialize (HC _ Ic).
    destruct (nth_error ms (nth b c 0%nat)) as [m|] eqn:NM; [|apply nth_error_None in NM; lia].
    exists (aic_entry em g m). split; [|split; [reflexivity|split; [reflexivity|]]].
    - unfold temp. rewrite nth_error_map, (nth_error_nth' c 0%nat Hb). cbn [option_map]. f_equal.
      apply nth_error_nth. rewrite nth_error_map, NM. reflexivity.
    - unfold val. rewrite NM. reflexivity. }
  destruct (sort_onto_spec (fun b => - val (nth b c 0%nat)) (length c) (key_lt temp)) with (l := seq 0 (length temp)) (acc := @nil nat) as (best & -> & P & S').
  - intros i j Hi Hj. unfold key_lt. destruct (TN i Hi) as (e & E1 & E2 & E3 & E4), (TN j Hj) as (e' & F1 & F2 & F3 & F4).
    rewrite (pyget_nth _ _ _ E1), (pyget_nth _ _ _ F1). cbn [bind]. unfold ev_lt, compare_with. rewrite E2, F2, method_eqb_refl, E4, F4, E3. cbn [negb]. f_equal.
    apply eq_true_iff_eq. rewrite !Rltb_spec. lra.
  - intros i Hi. apply in_seq in Hi. lia.
  - intros i [].
  - constructor.
  - cbn [bind]. rewrite app_nil_r in P.
    assert (HB : forall b, In b best -> (b < length c)%nat) by (intros b Hb; apply (Permutation_in _ P), in_seq in Hb; lia).
    exists (map (fun b => nth b c 0%nat) best). split; [|split].
    + apply map_result_ok. intros b Hb. apply pyget_nth, nth_error_nth'. auto.
    + rewrite (Permutation_map _ P), LT. rewrite map_nth_seq. reflexivity.
    + clear P. induction S' as [|b best S' IH HF]; cbn [map]; constructor.
      * apply IH. intros; apply HB; now right.
      * rewrite Forall_forall in *. intros j Hj m m' M1 M2. apply in_map_iff in Hj as (b' & <- & Hb'). specialize (HF b' Hb'). unfold val in HF. rewrite M1, M2 in HF. lra.
Qed.

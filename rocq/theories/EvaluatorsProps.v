(** Properties C33-C36 (modelevaluators). *)
From Coq Require Import Reals Lra Psatz.
From Verif Require Import Prelude Evaluators.
Open Scope R_scope.

Lemma Rltb_spec a b : Rltb a b = true <-> a < b.
Proof. unfold Rltb. destruct (Rlt_dec a b); split; intros; auto; try discriminate; contradiction. Qed.
Lemma Rleb_spec a b : Rleb a b = true <-> a <= b.
Proof. unfold Rleb. destruct (Rle_dec a b); split; intros; auto; try discriminate; contradiction. Qed.
Lemma Reqb_spec a b : Reqb a b = true <-> a = b.
Proof. unfold Reqb. destruct (Req_EM_T a b); split; intros; auto; try discriminate; contradiction. Qed.

(** ** C33 *)
(** Two evaluators that may be compared, with statistics a and b. *)
Definition comparable (x y : evaluator) (a b : R) :=
  emethod x = emethod y /\ higher_is_better x = higher_is_better y /\ stat x = Some a /\ stat y = Some b.
(** "x is worse than y": lower is better unless the method says otherwise. *)
Definition worse (x : evaluator) (a b : R) := if higher_is_better x then a < b else b < a.

Lemma method_eqb_refl m : method_eqb m m = true.
Proof. destruct m; auto. apply Nat.eqb_refl. Qed.
Lemma method_eqb_eq a b : method_eqb a b = true <-> a = b.
Proof.
  destruct a, b; cbn; split; intros H; try discriminate; try reflexivity.
  - apply Nat.eqb_eq in H. now subst.
  - injection H as ->. apply Nat.eqb_refl.
Qed.

Theorem C33_operators_agree_with_order :
  forall x y a b, comparable x y a b ->
    (ev_lt x y = Ok true <-> worse x a b) /\ (ev_gt x y = Ok true <-> worse x b a) /\
    (ev_eq x y = Ok true <-> a = b) /\ (ev_ne x y = Ok true <-> a <> b) /\
    (ev_le x y = Ok true <-> worse x a b \/ a = b) /\ (ev_ge x y = Ok true <-> worse x b a \/ a = b) /\
    (forall op, In op [ev_lt; ev_le; ev_eq; ev_ne; ev_gt; ev_ge] -> exists t, op x y = Ok t).
Proof.
  intros x y a b (Hm & Hh & Ha & Hb).
  unfold ev_lt, ev_le, ev_eq, ev_ne, ev_gt, ev_ge, compare_with, worse.
  rewrite Hm, method_eqb_refl, Ha, Hb. cbn [negb].
  assert (K : forall t, (Ok t = Ok true) <-> t = true) by (intros t; split; [intros [= ->]; reflexivity|intros ->; reflexivity]).
  repeat rewrite K.
  split; [|split; [|split; [|split; [|split; [|split]]]]].
  - destruct (higher_is_better x); apply Rltb_spec.
  - destruct (higher_is_better x); apply Rltb_spec.
  - destruct (higher_is_better x); apply Reqb_spec.
  - assert (N : negb (Reqb a b) = true <-> a <> b).
    { rewrite negb_true_iff. split.
      - intros H ->. pose proof (proj2 (Reqb_spec b b) eq_refl). congruence.
      - intros H. destruct (Reqb a b) eqn:E; [apply Reqb_spec in E; contradiction|reflexivity]. }
    destruct (higher_is_better x); exact N.
  - destruct (higher_is_better x); rewrite Rleb_spec; lra.
  - destruct (higher_is_better x); rewrite Rleb_spec; lra.
  - intros op [<-|[<-|[<-|[<-|[<-|[<-|[]]]]]]]; rewrite Hm, method_eqb_refl, Ha, Hb; cbn; eauto.
Qed.
Print Assumptions C33_operators_agree_with_order.

Theorem C33_total_preorder :
  forall x y z a b c, comparable x y a b -> comparable y z b c ->
    (* exactly one of <, ==, > *)
    (ev_lt x y = Ok true /\ ev_eq x y = Ok false /\ ev_gt x y = Ok false \/
     ev_lt x y = Ok false /\ ev_eq x y = Ok true /\ ev_gt x y = Ok false \/
     ev_lt x y = Ok false /\ ev_eq x y = Ok false /\ ev_gt x y = Ok true) /\
    (ev_lt x y = ev_gt y x) /\ (ev_le x y = ev_ge y x) /\ ev_eq x y = ev_eq y x /\
    (ev_le x y = Ok true -> ev_le y z = Ok true -> ev_le x z = Ok true) /\
    (ev_lt x y = Ok true -> ev_le y z = Ok true -> ev_lt x z = Ok true).
Proof.
  intros x y z a b c (Hm & Hh & Ha & Hb) (Hm' & Hh' & _ & Hc).
  unfold ev_lt, ev_le, ev_eq, ev_ne, ev_gt, ev_ge, compare_with.
  rewrite <- Hm', <- Hm, !method_eqb_refl, Ha, Hb, Hc, <- Hh. cbn [negb].
  unfold Rltb, Rleb, Reqb.
  destruct (higher_is_better x);
    repeat match goal with
    | |- context [Rlt_dec ?u ?v] => destruct (Rlt_dec u v)
    | |- context [Rle_dec ?u ?v] => destruct (Rle_dec u v)
    | |- context [Req_EM_T ?u ?v] => destruct (Req_EM_T u v)
    end; repeat split; auto 6; try lra; try (intros; discriminate); try (exfalso; lra).
Qed.
Print Assumptions C33_total_preorder.

(** AIC and AICc: lower statistic is better, i.e. greater. *)
Theorem C33_lower_is_better :
  forall m x y a b, (m = AIC \/ m = AICc) -> emethod x = m -> emethod y = m ->
    higher_is_better x = higher_is_better (new_evaluator m false) -> stat x = Some a -> stat y = Some b ->
    (ev_lt x y = Ok true <-> b < a).
Proof.
  intros m x y a b Hm Hx Hy Hh Ha Hb. unfold ev_lt, compare_with. rewrite Hx, Hy, method_eqb_refl, Ha, Hb, Hh. cbn.
  rewrite <- Rltb_spec. split; [intros [= ->]; reflexivity|intros ->; reflexivity].
Qed.
Print Assumptions C33_lower_is_better.

Theorem C33_refuses_incomparable :
  forall op x y, In op [ev_lt; ev_le; ev_eq; ev_ne; ev_gt; ev_ge] ->
    (op x y = Err AssertionError <-> emethod x <> emethod y \/ stat x = None \/ stat y = None) /\
    (forall e, op x y = Err e -> e = AssertionError).
Proof.
  intros op x y Hop.
  assert (G : forall lo hi, (compare_with lo hi x y = Err AssertionError <-> emethod x <> emethod y \/ stat x = None \/ stat y = None)
    /\ (forall e, compare_with lo hi x y = Err e -> e = AssertionError)).
  { intros lo hi. unfold compare_with. destruct (method_eqb (emethod x) (emethod y)) eqn:E; cbn [negb].
    - apply method_eqb_eq in E. destruct (stat x), (stat y).
      + split; [split; [discriminate|intros [H|[H|H]]; congruence]|discriminate].
      + split; [split; auto|intros e [= <-]; reflexivity].
      + split; [split; auto|intros e [= <-]; reflexivity].
      + split; [split; auto|intros e [= <-]; reflexivity].
    - split; [|congruence]. split; [|auto]. intros _. left. intros H. apply method_eqb_eq in H. congruence. }
  destruct Hop as [<-|[<-|[<-|[<-|[<-|[<-|[]]]]]]]; apply G.
Qed.
Print Assumptions C33_refuses_incomparable.

Example C33_nonvacuous :
  comparable (mkEv AIC false (Some 1) None) (mkEv AIC false (Some 2) None) 1 2 /\
  ev_gt (mkEv AIC false (Some 1) None) (mkEv AIC false (Some 2) None) = Ok true /\
  ev_lt (mkEv AIC false (Some 1) None) (mkEv AICc false (Some 2) None) = Err AssertionError.
Proof.
  split; [repeat split|]. split; [|reflexivity]. unfold ev_gt, compare_with. cbn. unfold Rltb.
  destruct (Rlt_dec 1 2); [reflexivity|lra].
Qed.

(** ** C34 *)
Lemma chi_nonneg ps : (forall e o s, In (e, o, s) ps -> s <> 0) -> 0 <= chi_squared ps.
Proof.
  unfold chi_squared. induction ps as [|[[e o] s] ps IH]; intros H; cbn [map fold_right]; [lra|].
  assert (0 <= (e - o) ^ 2 / s ^ 2).
  { unfold Rdiv. apply Rmult_le_pos; [apply pow2_ge_0|]. left. apply Rinv_0_lt_compat.
    assert (s <> 0) by (eapply H; now left). rewrite <- Rsqr_pow2. apply Rsqr_pos_lt. assumption. }
  assert (0 <= fold_right Rplus 0 (map (fun p => let '(e, o, s) := p in (e - o) ^ 2 / s ^ 2) ps)).
  { apply IH. intros; eapply H; right; eauto. }
  lra.
Qed.

(** A fresh AIC or AICc evaluator computes exactly the documented statistic. *)
Theorem C34_criterion_values :
  forall (f : fitdata) (cf : bool) (ks : Z),
    let k := (Z.of_nat (if cf then npars_all f else npars_free f) + ks)%Z in
    let n := Z.max (Z.of_nat (length (points f))) (k + 2) in
    let chi2 := chi_squared (points f) in
    ((k < 0)%Z -> evaluate new_AIC f cf ks = (new_AIC, Err GenericException) /\
                  evaluate new_AICc f cf ks = (new_AICc, Err GenericException)) /\
    ((0 <= k)%Z ->
       snd (evaluate new_AIC f cf ks) = Ok (chi2 + 2 * IZR k) /\
       stat (fst (evaluate new_AIC f cf ks)) = Some (chi2 + 2 * IZR k) /\
       snd (evaluate new_AICc f cf ks) =
         Ok (chi2 + (2 * IZR k + 2 * IZR k * (IZR k + 1) / (IZR n - IZR k - 1))) /\
       stat (fst (evaluate new_AICc f cf ks)) =
         Some (chi2 + (2 * IZR k + 2 * IZR k * (IZR k + 1) / (IZR n - IZR k - 1))) /\
       1 <= IZR n - IZR k - 1).
Proof.
  intros f cf ks k n chi2. unfold evaluate. fold k. split; intros Hk.
  - destruct (Z.ltb_spec k 0); [auto|lia].
  - destruct (Z.ltb_spec k 0); [lia|]. cbn [emethod new_AIC new_AICc new_evaluator chisq fst snd stat].
    assert (EN : (if (size f <? minpoints AICc k)%Z then minpoints AICc k else size f) = n).
    { unfold size, minpoints, n. destruct (Z.ltb_spec (Z.of_nat (length (points f))) (k + 2)); lia. }
    rewrite EN. fold chi2. unfold parpenalty.
    assert (E1 : IZR (2 * k) = 2 * IZR k) by (rewrite mult_IZR; reflexivity).
    assert (E2 : IZR (2 * k * (k + 1)) = 2 * IZR k * (IZR k + 1)) by (rewrite !mult_IZR, plus_IZR; reflexivity).
    assert (E3 : IZR (n - k - 1) = IZR n - IZR k - 1) by (rewrite !minus_IZR; reflexivity).
    rewrite E1, E2, E3. repeat split.
    rewrite <- E3. apply (IZR_le 1). unfold n. lia.
Qed.
Print Assumptions C34_criterion_values.

(** Penalties as functions of the number of parameters k and of points n, including
    the clamp of n: strictly increasing in k, nonnegative, AICc at least AIC (strictly
    for k>0), decreasing in n, and converging to AIC's. *)
Definition penalty_AICc (k n : Z) : R := parpenalty AICc k (Z.max n (k + 2)).

Lemma pen_form k n : penalty_AICc k n = 2 * IZR k + 2 * IZR k * (IZR k + 1) / (IZR (Z.max n (k + 2)) - IZR k - 1).
Proof.
  unfold penalty_AICc, parpenalty. rewrite !mult_IZR, plus_IZR, !minus_IZR. reflexivity.
Qed.

Lemma max_den k n : 1 <= IZR (Z.max n (k + 2)) - IZR k - 1.
Proof. rewrite <- !minus_IZR. apply (IZR_le 1). lia. Qed.

Lemma div_ge0 a d : 0 <= a -> 1 <= d -> 0 <= a / d.
Proof. intros. unfold Rdiv. apply Rmult_le_pos; [lra|]. left. apply Rinv_0_lt_compat. lra. Qed.

Theorem C34_penalty_monotone :
  forall k n, (0 <= k)%Z ->
    0 <= parpenalty AIC k n /\ parpenalty AIC k n < parpenalty AIC (k + 1) n /\
    parpenalty AIC k n <= penalty_AICc k n /\ ((0 < k)%Z -> parpenalty AIC k n < penalty_AICc k n) /\
    penalty_AICc k n < penalty_AICc (k + 1) n /\
    (forall n', (n <= n')%Z -> penalty_AICc k n' <= penalty_AICc k n) /\
    (forall eps, 0 < eps -> exists N, forall m, (N <= m)%Z -> penalty_AICc k m - parpenalty AIC k m < eps).
Proof.
  intros k n Hk. assert (K0 : 0 <= IZR k) by (apply (IZR_le 0); exact Hk).
  assert (A : parpenalty AIC k n = 2 * IZR k) by (unfold parpenalty; now rewrite mult_IZR).
  rewrite A. rewrite !pen_form.
  pose proof (max_den k n) as D.
  set (d := IZR (Z.max n (k + 2)) - IZR k - 1) in *.
  assert (P0 : 0 <= 2 * IZR k * (IZR k + 1) / d) by (apply div_ge0; [nra|exact D]).
  split; [lra|]. split; [unfold parpenalty; rewrite mult_IZR, plus_IZR; lra|]. split; [lra|]. split; [|split; [|split]].
  - intros Hp. assert (1 <= IZR k) by (apply (IZR_le 1); lia).
    assert (0 < 2 * IZR k * (IZR k + 1) / d); [|lra].
    unfold Rdiv. apply Rmult_lt_0_compat; [nra|]. apply Rinv_0_lt_compat. lra.
  - pose proof (max_den (k + 1) n) as D'.
    set (d' := IZR (Z.max n (k + 1 + 2)) - IZR (k + 1) - 1) in *.
    assert (Hdd : d' <= d).
    { unfold d, d'. rewrite plus_IZR. destruct (Z.max_spec n (k + 2)) as [[H1 ->]|[H1 ->]];
        destruct (Z.max_spec n (k + 1 + 2)) as [[H2 ->]|[H2 ->]]; rewrite ?plus_IZR; try lia.
      - lra.
      - assert (n = k + 2)%Z as -> by lia. rewrite !plus_IZR. lra.
      - lra. }
    rewrite plus_IZR.
    assert (2 * IZR k * (IZR k + 1) / d <= 2 * (IZR k + 1) * (IZR k + 1 + 1) / d'); [|lra].
    unfold Rdiv. apply Rle_trans with (2 * IZR k * (IZR k + 1) * / d').
    + apply Rmult_le_compat_l; [nra|]. apply Rinv_le_contravar; lra.
    + apply Rmult_le_compat_r; [|nra]. left. apply Rinv_0_lt_compat. lra.
  - intros n' Hn. rewrite pen_form. pose proof (max_den k n') as D'.
    set (d' := IZR (Z.max n' (k + 2)) - IZR k - 1) in *.
    assert (Hdd : d <= d').
    { unfold d, d'. apply Rplus_le_compat_r, Rplus_le_compat_r. apply IZR_le. lia. }
    assert (2 * IZR k * (IZR k + 1) / d' <= 2 * IZR k * (IZR k + 1) / d); [|lra].
    unfold Rdiv. apply Rmult_le_compat_l; [nra|]. apply Rinv_le_contravar; lra.
  - intros eps He. set (c := 2 * IZR k * (IZR k + 1)).
    exists (up (c / eps) + k + 2)%Z. intros m Hm. rewrite pen_form.
    unfold parpenalty. rewrite mult_IZR. fold c.
    pose proof (max_den k m) as D'. set (d' := IZR (Z.max m (k + 2)) - IZR k - 1) in *.
    assert (Hc : c / eps < d').
    { apply Rlt_le_trans with (IZR (up (c / eps))); [apply archimed|]. unfold d'. rewrite <- !minus_IZR.
      apply IZR_le. lia. }
    assert (c / d' < eps); [|lra].
    apply Rmult_lt_reg_r with d'; [lra|]. unfold Rdiv. rewrite Rmult_assoc, Rinv_l by lra.
    apply Rmult_lt_reg_r with (/ eps); [apply Rinv_0_lt_compat; lra|].
    unfold Rdiv in Hc. replace (eps * d' * / eps) with d' by (field; lra). lra.
Qed.
Print Assumptions C34_penalty_monotone.

(** An evaluator keeps the first chi-squared it computed: re-evaluating it for another
    fit does not give that fit's criterion. *)
Theorem C82_reused_evaluator_refuted :
  exists f g, let e := fst (evaluate new_AIC f false 0) in
    snd (evaluate e g false 0) <> snd (evaluate new_AIC g false 0).
Proof.
  exists (mkFit 0 0 [(1, 0, 1)]), (mkFit 0 0 [(0, 0, 1)]). cbn.
  unfold parpenalty, chi_squared. cbn. intros E.
  match type of E with Ok ?a = Ok ?b => assert (H : a = b) by (injection E; auto) end. field_simplify in H. lra.
Qed.
Print Assumptions C82_reused_evaluator_refuted.

Example C34_nonvacuous :
  penalty_AICc 3 10 = 6 + 24 / 6 /\ penalty_AICc 3 4 = 6 + 24 /\
  snd (evaluate new_AICc (mkFit 4 3 [(1, 0, 1); (2, 0, 1)]) false 0) = Ok (1 + 4 + (6 + 24)).
Proof.
  split; [unfold penalty_AICc, parpenalty; cbn; field|]. split; [unfold penalty_AICc, parpenalty; cbn; field|].
  unfold evaluate, parpenalty, chi_squared. cbn. f_equal. field.
Qed.

(** ** C35 *)
(** Adding k' >= 0 parameters is justified exactly when enough points support them and
    a fit with chi-squared 0 and k+k' parameters would have a better (smaller)
    criterion than the present one. *)
Theorem C35_growth_justified_exact :
  forall m f k', (m = AIC \/ m = AICc) -> (0 <= k')%Z ->
    let k := Z.of_nat (npars_free f) in
    let n := Z.of_nat (length (points f)) in
    let pen j := match m with AICc => 2 * IZR j + 2 * IZR j * (IZR j + 1) / (IZR n - IZR j - 1) | _ => 2 * IZR j end in
    let enough := match m with AICc => (k + k' + 2 <= n)%Z | _ => (1 <= n)%Z end in
    snd (growth_justified (new_evaluator m false) f k') = true <->
      enough /\ 0 + pen (k + k')%Z < chi_squared (points f) + pen k.
Proof.
  intros m f k' Hm Hk k n pen enough. unfold growth_justified. cbn [emethod new_evaluator chisq stat higher_is_better].
  fold k. change (size f) with n.
  assert (PE : forall j, parpenalty m j n = pen j).
  { intros j. unfold parpenalty, pen. destruct Hm as [->| ->]; rewrite ?mult_IZR; [reflexivity|].
    rewrite plus_IZR, !minus_IZR. reflexivity. }
  destruct (Z.ltb_spec n (minpoints m (k + k'))) as [Hn|Hn].
  - cbn. split; [discriminate|]. intros [He _]. unfold enough in He. unfold minpoints in Hn.
    destruct Hm as [->| ->]; lia.
  - assert (He : enough) by (unfold enough; unfold minpoints in Hn; destruct Hm as [->| ->]; lia).
    destruct (Z.ltb_spec n (minpoints m k)) as [Hn2|Hn2].
    { exfalso. unfold minpoints in *. destruct Hm as [->| ->]; lia. }
    cbn [snd]. rewrite !PE, Rltb_spec. split; [intros H; split; [exact He|lra]|intros [_ H]; lra].
Qed.
Print Assumptions C35_growth_justified_exact.

Example C35_nonvacuous :
  snd (growth_justified new_AIC (mkFit 3 3 [(3, 0, 1); (0, 0, 1)]) 3) = true /\
  snd (growth_justified new_AICc (mkFit 3 3 [(3, 0, 1); (0, 0, 1)]) 3) = false.
Proof.
  split.
  - change new_AIC with (new_evaluator AIC false). apply C35_growth_justified_exact; [auto|lia|].
    cbn. split; [lia|]. unfold chi_squared. cbn. lra.
  - reflexivity.
Qed.

(** ** C36 *)
Lemma list_min_le l : forall a, list_min a l <= a /\ forall b, In b l -> list_min a l <= b.
Proof.
  induction l as [|c l IH]; intros a; cbn; [split; [lra|tauto]|].
  destruct (IH (Rmin a c)) as [H1 H2]. pose proof (Rmin_l a c). pose proof (Rmin_r a c).
  split; [lra|]. intros b [<-|Hb]; [lra|auto].
Qed.
Lemma list_min_in l : forall a, In (list_min a l) (a :: l).
Proof.
  induction l as [|c l IH]; intros a; cbn; [auto|].
  destruct (IH (Rmin a c)) as [H|H]; [|auto]. rewrite <- H. unfold Rmin. destruct (Rle_dec a c); auto.
Qed.
Lemma Rsum_pos l : l <> [] -> (forall x, In x l -> 0 < x) -> 0 < Rsum l.
Proof.
  intros Hne H. unfold Rsum. destruct l as [|a l]; [contradiction|]. cbn.
  assert (0 <= fold_right Rplus 0 l).
  { assert (G : forall x, In x l -> 0 < x) by (intros; apply H; now right). clear - G.
    induction l as [|b l IH]; cbn; [lra|].
    assert (0 < b) by (apply G; now left). assert (0 <= fold_right Rplus 0 l) by (apply IH; intros; apply G; now right). lra. }
  assert (0 < a) by (apply H; now left). lra.
Qed.
Lemma Rsum_div l c : Rsum (map (fun x => x / c) l) = Rsum l / c.
Proof. unfold Rsum. induction l as [|a l IH]; cbn; [unfold Rdiv; ring|]. rewrite IH. unfold Rdiv. ring. Qed.

Theorem C36_weights :
  forall stats, stats <> [] ->
    exists w m, akaikeweights stats = Ok w /\ length w = length stats /\
      In m stats /\ (forall s, In s stats -> m <= s) /\
      forall i s, nth_error stats i = Some s -> exists x, nth_error w i = Some x /\
        x = exp ((m - s) / 2) /\ 0 < x <= 1 /\ (x = 1 <-> s = m).
Proof.
  intros [|a l] H; [contradiction|]. clear H.
  exists (map (fun s => exp (- (s - list_min a l) / 2)) (a :: l)), (list_min a l).
  split; [reflexivity|]. split; [apply map_length|]. split; [apply list_min_in|].
  assert (MIN : forall s, In s (a :: l) -> list_min a l <= s).
  { intros s Hs. destruct (list_min_le l a) as [H1 H2]. destruct Hs as [<-|Hs]; auto. }
  split; [exact MIN|]. intros i s Hi.
  rewrite nth_error_map, Hi. eexists. split; [reflexivity|].
  replace (- (s - list_min a l) / 2) with ((list_min a l - s) / 2) by field. split; [reflexivity|].
  assert (Hs : list_min a l <= s) by (apply MIN; eapply nth_error_In; eauto).
  split; [split; [apply exp_pos|]|].
  - rewrite <- exp_0. destruct (Rle_lt_or_eq_dec _ _ Hs) as [Hlt|Heq].
    + left. apply exp_increasing. lra.
    + right. f_equal. lra.
  - rewrite <- exp_0. split; intros E.
    + apply exp_inv in E. lra.
    + subst. f_equal. field.
Qed.
Print Assumptions C36_weights.

Theorem C36_probabilities :
  forall stats, stats <> [] ->
    exists p, akaikeprobs stats = Ok p /\ length p = length stats /\ Rsum p = 1 /\
      (forall x, In x p -> 0 < x <= 1) /\
      (forall i j s t x y, nth_error stats i = Some s -> nth_error stats j = Some t ->
         nth_error p i = Some x -> nth_error p j = Some y ->
         (s < t <-> y < x) /\ (s = t <-> x = y) /\ x / y = exp ((t - s) / 2)).
Proof.
  intros stats Hne. destruct (C36_weights stats Hne) as (w & m & Ew & Lw & _ & _ & Hw).
  assert (Wn : w <> []) by (destruct w; [destruct stats; [contradiction|discriminate]|discriminate]).
  assert (Wpos : forall x, In x w -> 0 < x).
  { intros x Hx. destruct (In_nth_error _ _ Hx) as [i Hi].
    destruct (nth_error stats i) as [s|] eqn:Hs.
    - destruct (Hw i s Hs) as (x' & Hx' & _ & Hp & _). rewrite Hi in Hx'. injection Hx' as <-. lra.
    - apply nth_error_None in Hs. assert (i < length w)%nat by (apply nth_error_Some; congruence). lia. }
  assert (Sp : 0 < Rsum w) by (apply Rsum_pos; auto).
  exists (map (fun x => x / Rsum w) w). unfold akaikeprobs. rewrite Ew. cbn [bind].
  split; [reflexivity|]. split; [rewrite map_length; exact Lw|].
  split; [rewrite Rsum_div; unfold Rdiv; apply Rinv_r; lra|]. split.
  - intros x Hx. apply in_map_iff in Hx. destruct Hx as (y & <- & Hy). specialize (Wpos y Hy) as Yp. split.
    + unfold Rdiv. apply Rmult_lt_0_compat; [exact Yp|]. apply Rinv_0_lt_compat. exact Sp.
    + apply Rmult_le_reg_r with (Rsum w); [exact Sp|]. unfold Rdiv. rewrite Rmult_assoc, Rinv_l by lra.
      rewrite Rmult_1_l, Rmult_1_r.
      assert (G : forall l, (forall x, In x l -> 0 < x) -> In y l -> y <= Rsum l).
      { clear. intros l. induction l as [|b l IH]; intros P Hin; [destruct Hin|].
        unfold Rsum in *. cbn. assert (0 < b) by (apply P; now left).
        assert (Q : forall x, In x l -> 0 < x) by (intros; apply P; now right).
        destruct Hin as [->|Hin].
        - assert (0 <= fold_right Rplus 0 l); [|lra]. clear - Q. induction l as [|c l IH]; cbn; [lra|].
          assert (0 < c) by (apply Q; now left). assert (0 <= fold_right Rplus 0 l) by (apply IH; intros; apply Q; now right). lra.
        - specialize (IH Q Hin). lra. }
      apply G; auto.
  - intros i j s t x y Hs Ht Hx Hy. rewrite nth_error_map in Hx, Hy.
    destruct (Hw i s Hs) as (u & Hu & Eu & Pu & _). destruct (Hw j t Ht) as (v & Hv & Ev & Pv & _).
    rewrite Hu in Hx. rewrite Hv in Hy. injection Hx as <-. injection Hy as <-.
    assert (I0 : 0 < / Rsum w) by (apply Rinv_0_lt_compat; exact Sp).
    split; [|split].
    + unfold Rdiv. split; intros H.
      * apply Rmult_lt_compat_r; [exact I0|]. rewrite Eu, Ev. apply exp_increasing. lra.
      * apply Rmult_lt_reg_r in H; [|exact I0]. rewrite Eu, Ev in H. apply exp_lt_inv in H. lra.
    + unfold Rdiv. split; intros H.
      * subst t. rewrite Eu, Ev. reflexivity.
      * apply Rmult_eq_reg_r in H; [|lra]. rewrite Eu, Ev in H. apply exp_inv in H. lra.
    + replace (u / Rsum w / (v / Rsum w)) with (u * / v) by (field; split; lra).
      rewrite Eu, Ev, <- exp_Ropp, <- exp_plus. f_equal. field.
Qed.
Print Assumptions C36_probabilities.

Theorem C36_empty_raises : akaikeweights [] = Err ValueError /\ akaikeprobs [] = Err ValueError.
Proof. split; reflexivity. Qed.
Print Assumptions C36_empty_raises.

Example C36_nonvacuous : exists p, akaikeprobs [3; 1; 1] = Ok p /\ Rsum p = 1.
Proof. destruct (C36_probabilities [3; 1; 1]) as (p & E & _ & S & _); [discriminate|]. eauto. Qed.

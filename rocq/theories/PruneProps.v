(** Properties C42 (prune) and C66 (augment), and reduce_to. *)
From Coq Require Import Permutation Sorted.
From Verif Require Import Prelude ModelCluster ModelClusterProofs ModelClusterProps Prune PruneProofs.
Open Scope Z_scope.

Section Props.
Context {P B Q L : Type}.
Variable w : world P B Q.
Variable qk : cluster P B -> nat -> Q.
Variable qargmax : list Q -> nat.
Notation cluster := (cluster P B).
Variable lab : P -> L.

(** ** Prune always finishes, and only ever takes peaks away. *)
(** [fuel] counts rounds: one more than the number of peaks always suffices.  The peaks
    afterwards are, up to parameters and order, the peaks before without [gone]; unless the
    optimiser produced NaN parameters, no peak in [gone] is protected. *)
Theorem C42_terminates_removing_only_removable :
  argsort_ok (w_argsort w) -> engine_shape w lab ->
  forall (c : cluster) fuel, (length (c_model c) < fuel)%nat ->
    exists m out gone, prune w qk qargmax fuel c = Some (m, out) /\
      Permutation (map (fun p => (lab p, w_removable w p)) (c_model c))
                  (map (fun p => (lab p, w_removable w p)) m ++ gone) /\
      (engine_no_nan w -> forall x, In x gone -> snd x = true) /\
      (m = c_model c \/ (length m < length (c_model c))%nat).
Proof.
  intros AS ES c fuel Hf. unfold prune. destruct (c_model c) as [|p0 m0] eqn:M.
  { exists [], (Ok tt), []. split; [reflexivity|]. split; [constructor|]. split; [intros _ x []|now left]. }
  rewrite <- M in *. clear M p0 m0.
  assert (Z : exists gone, Permutation (map (fun p => (lab p, w_removable w p)) (c_model c)) (map (fun p => (lab p, w_removable w p)) (c_model c) ++ gone)
     /\ (engine_no_nan w -> forall x, In x gone -> snd x = true)).
  { exists []. rewrite app_nil_r. split; [reflexivity|intros _ x []]. }
  destruct (make_cluster w [] None _ _ _ None _ _) as [mc|e].
  - destruct (prune_loop w qk qargmax fuel _ _ _ _ _ _ mc _) as [[m out]|] eqn:E.
    + exists m, out. apply (prune_loop_kept w qk qargmax lab AS ES) in E; auto.
      destruct E as [->|[(gone & K1 & K2) K3]].
      * destruct Z as (g & Z1 & Z2). exists g. auto.
      * exists gone. auto.
    + exfalso. revert E. apply (prune_loop_fuel w qk qargmax lab AS ES); auto.
  - destruct Z as (g & Z1 & Z2). exists (c_model c), (Err e), g. auto.
Qed.

(** ** If every peak may be removed, prune returns normally. *)
Lemma check_peaks_ok best bq rc yn : engine_tame w -> argsort_ok (w_argsort w) -> rc <> [] ->
  forall is mc, r_cluster mc = rc -> (forall i, In i is -> (i < length best)%nat) ->
  exists t, check_peaks w qk best bq rc yn is mc = Ok t.
Proof.
  intros ET AS RN. induction is as [|i is IH]; intros mc HR HI; cbn [check_peaks]; [eexists; reflexivity|].
  destruct (nth_error best i) as [p|] eqn:N.
  2:{ exfalso. apply nth_error_None in N. specialize (HI i (or_introl eq_refl)). lia. }
  destruct (w_removable w p).
  - set (mc1 := set_y _ _). destruct (fit_tame w mc1 (Nat.sqrt (length rc) + 50) ET) as [o E].
    { unfold mc1. change (r_cluster (set_y _ _)) with (r_cluster mc). now rewrite HR. }
    rewrite E. set (f := fit w mc1 _ _ _ _).
    destruct (IH (fr_c f)) as [[[a b] d] E2].
    { destruct (fit_frame w AS mc1 false (Nat.sqrt (length rc) + 50) false false) as (F1 & _ & _ & F4 & F5 & _).
      fold f in F1, F4, F5. unfold r_cluster in *. rewrite F1, F4, F5. exact HR. }
    { intros j Hj. apply HI. now right. }
    rewrite E2. cbn [bind]. eexists. reflexivity.
  - destruct (IH mc HR) as [[[a b] d] E2]; [intros j Hj; apply HI; now right|]. rewrite E2. cbn [bind]. eexists. reflexivity.
Qed.

Lemma all_removable_sig (m : list P) : (forall p, In p m -> w_removable w p = true) <-> (forall x, In x (sig w lab m) -> snd x = true).
Proof.
  unfold sig. split.
  - intros H x Hx. apply in_map_iff in Hx as (p & <- & Hp). now apply H.
  - intros H p Hp. specialize (H (lab p, w_removable w p)). apply H. apply in_map_iff. eauto.
Qed.

Theorem C42_normal_return :
  argsort_ok (w_argsort w) -> engine_shape w lab -> engine_tame w -> argmax_ok (w_qlt w) qargmax ->
  (forall a b, w_qlt w a b = true -> w_qlt w b a = false) ->
  (forall x, w_rnd w x < 0 <-> x < 0) -> (forall b r, length (w_blvalue w b r) = length r) ->
  forall (c : cluster) fuel, (length (c_model c) < fuel)%nat ->
    length (adat (c_y c)) = length (adat (c_r c)) -> length (adat (c_e c)) = length (adat (c_r c)) ->
    (c_start c < c_stop c <= length (adat (c_r c)))%nat ->
    (forall p, In p (c_model c) -> w_removable w p = true) ->
    exists m, prune w qk qargmax fuel c = Some (m, Ok tt).
Proof.
  intros AS ES ET AM ASY RO BL c fuel Hf L1 L2 L3 AR. unfold prune.
  destruct (c_model c) as [|p0 m0] eqn:M; [eexists; reflexivity|]. rewrite <- M in *.
  assert (NE : c_model c <> []) by (rewrite M; discriminate). clear M p0 m0.
  set (rc := r_cluster c). set (yn := vsub w _ _).
  assert (Lr : length rc = (c_stop c - c_start c)%nat) by (unfold rc, r_cluster; rewrite slice_length; lia).
  assert (Ly : length yn = length rc).
  { unfold yn, vsub. rewrite map_length, combine_length. unfold y_cluster. rewrite slice_length.
    assert (length (valuebl w (c_base c) rc) = length rc) by (unfold valuebl; destruct (c_base c); [apply BL|apply map_length]).
    lia. }
  assert (Le : length (e_cluster c) = length rc) by (unfold e_cluster; rewrite slice_length; lia).
  destruct (make_ok w [] None (mkArr 0 rc) (mkArr 0 yn) (mkArr 0 (e_cluster c)) 0 (length rc) (c_em c) (c_pf c) RO) as [v MK];
    cbn [adat]; auto; [unfold valuebl; apply map_length|lia|].
  unfold make_cluster in *. cbn [adat] in *. rewrite MK. set (mc0 := mkC _ _ _ _ _ _ _ _ _ _ _).
  assert (RN : rc <> []) by (intros E; rewrite E in Lr; cbn in Lr; lia).
  assert (HR : r_cluster mc0 = rc) by (unfold r_cluster, mc0, slice; cbn [c_r c_start c_stop adat]; rewrite Nat.sub_0_r; apply firstn_all).
  clearbody mc0. clear MK v Ly Le.
  set (bq := w_quality w c). clearbody bq. set (live := map _ _). clearbody live.
  assert (G : forall fuel mc bq live cur best norig, r_cluster mc = rc -> (length best < fuel)%nat -> (length best <= norig)%nat ->
     best <> [] -> (forall p, In p best -> w_removable w p = true) ->
     exists m, prune_loop w qk qargmax fuel rc yn cur best norig bq mc live = Some (m, Ok tt)); [|apply G; auto].
  clear fuel Hf AR NE mc0 HR bq live.
  induction fuel as [|fuel IH]; intros mc bq live cur best norig HR Hf Hn NE AR; [lia|]. cbn [prune_loop].
  destruct (negb _) eqn:LV; [eexists; reflexivity|].
  destruct (check_peaks_ok best bq rc yn ET AS RN (seq 0 (length best)) mc HR) as [[[mc1 cks] qs] CP].
  { intros i Hi. apply in_seq in Hi. lia. }
  rewrite CP. destruct (check_peaks_spec w qk lab AS ES _ _ _ _ _ _ _ _ _ CP) as (K1 & K2 & K3 & K4 & K5 & K6 & K7 & K8).
  destruct qs as [|q0 qs'] eqn:EQ.
  { exfalso. destruct best as [|b0 best']; [contradiction|]. destruct (K3 0%nat 0%nat eq_refl) as (o & p & A1 & A2 & A3 & A4).
    cbn in A2. injection A2 as <-. destruct (A4 (AR b0 (or_introl eq_refl))) as (q & [] & _). }
  rewrite <- EQ in *. assert (QN : map snd qs <> []) by (rewrite EQ; discriminate). clear EQ q0 qs'.
  destruct (AM (map snd qs) QN) as (nq & NQ & MX). rewrite nth_error_map in NQ.
  destruct (nth_error qs (qargmax (map snd qs))) as [[idx nq']|] eqn:NI; [|discriminate]. cbn in NQ. injection NQ as ->.
  destruct (w_qlt w bq nq) eqn:QL; [|eexists; reflexivity].
  pose proof (nth_error_In _ _ NI) as IN. pose proof (K2 _ _ IN) as II. apply in_seq in II.
  destruct (K3 idx idx (nth_seq (length best) idx (proj2 II))) as (o & p & A1 & A2 & A3 & A4).
  destruct (A4 (AR p (nth_error_In _ _ A2))) as (q & B1 & B2 & B3).
  (* the index occurs once, so q is nq *)
  assert (UQ : q = nq).
  { assert (U : forall is mc mc' cks qs, check_peaks w qk best bq rc yn is mc = Ok (mc', cks, qs) -> NoDup is -> NoDup (map fst qs) /\ forall i, In i (map fst qs) -> In i is).
    { clear. induction is as [|i is IH]; intros mc mc' cks qs E ND; cbn [check_peaks] in E.
      - injection E as <- <- <-. split; [constructor|intros i []].
      - inversion ND as [|? ? N1 N2]; subst. destruct (nth_error best i); [|discriminate]. destruct (w_removable w _).
        + destruct (fr_out _); [|discriminate]. destruct (check_peaks _ _ _ _ _ _ _ _) as [[[mc9 ck9] qs9]|] eqn:E2; [|discriminate]. cbn [bind] in E. injection E as <- <- <-.
          destruct (IH _ _ _ _ E2 N2) as [G1 G2]. cbn [map fst]. split; [constructor; auto|]. intros j [<-|Hj]; [now left|right; auto].
        + destruct (check_peaks _ _ _ _ _ _ _ _) as [[[mc9 ck9] qs9]|] eqn:E2; [|discriminate]. cbn [bind] in E. injection E as <- <- <-.
          destruct (IH _ _ _ _ E2 N2) as [G1 G2]. split; [exact G1|]. intros j Hj. right. auto. }
    destruct (U _ _ _ _ _ CP (seq_NoDup _ _)) as [ND _].
    clear - ND IN B1. revert ND IN B1. induction qs as [|[i x] qs IH]; intros ND IN B1; [destruct IN|]. cbn [map fst] in ND. inversion ND as [|? ? N1 N2]; subst.
    destruct IN as [E|IN], B1 as [E'|B1].
    - congruence.
    - exfalso. apply N1. injection E as -> ->. apply in_map_iff. exists (idx, q). auto.
    - exfalso. apply N1. injection E' as -> ->. apply in_map_iff. exists (idx, nq). auto.
    - auto. }
  subst q. destruct o as [l|]; [|exfalso; pose proof (proj1 B2 eq_refl) as X; rewrite (ASY _ _ QL) in X; discriminate].
  rewrite A1. set (c2 := set_y _ _).
  assert (HR2 : r_cluster c2 = rc).
  { unfold c2, r_cluster. cbn [set_y set_model c_r c_start c_stop]. rewrite K4, K6, K7. exact HR. }
  destruct (fit_tame w c2 0 ET) as [o E]; [now rewrite HR2|]. rewrite E. set (f := fit w c2 false 0 false false).
  destruct (local_model_perm best idx p A2) as (front & back & EB & EF & EK). specialize (EK norig Hn).
  specialize (B3 l eq_refl). pose proof (fit_kept w lab AS ES c2 false 0) as [FK _]. fold f in FK.
  assert (LB : (length (c_model c2) < length best)%nat).
  { unfold c2. cbn [set_y set_model c_model]. rewrite <- EF, <- EK. apply kept_len in B3. unfold local_model in B3.
    apply (f_equal (@length P)) in EB. rewrite !app_length in *. cbn [length] in EB. rewrite app_length in EB. lia. }
  assert (AR2 : forall x, In x (sig w lab (c_model c2)) -> snd x = true).
  { assert (ARB : forall x, In x (sig w lab best) -> snd x = true) by (now apply all_removable_sig).
    intros x Hx. unfold c2 in Hx. cbn [set_y set_model c_model] in Hx. rewrite <- EF, <- EK in Hx. unfold sig in Hx. rewrite !map_app in Hx.
    apply ARB. rewrite EB. unfold sig. rewrite !map_app.
    apply in_app_or in Hx as [Hx|Hx]; [apply in_or_app; now left|].
    apply in_app_or in Hx as [Hx|Hx].
    - destruct B3 as (rem & Pm & _). assert (Hy : In x (sig w lab (local_model best idx))) by (rewrite Pm; apply in_or_app; now left).
      unfold sig, local_model in Hy. rewrite map_app in Hy. cbn [map]. rewrite map_app.
      apply in_app_or in Hy as [Hy|Hy]; [apply in_or_app; right; apply in_or_app; now left|].
      apply in_or_app; right; apply in_or_app; right. right. apply in_or_app. now left.
    - cbn [map]. rewrite map_app. apply in_or_app; right; apply in_or_app; right. right. apply in_or_app. now right. }
  assert (AR3 : forall q, In q (c_model (fr_c f)) -> w_removable w q = true).
  { apply all_removable_sig. intros x Hx. apply AR2. destruct FK as (rem & Pm & _). rewrite Pm. apply in_or_app. now left. }
  apply kept_len in FK. destruct (c_model (fr_c f)) as [|p1 m1] eqn:CM; [eexists; reflexivity|]. rewrite <- CM in *.
  apply IH; [|lia|lia|rewrite CM; discriminate|exact AR3].
  destruct (fit_frame w AS c2 false 0 false false) as (F1 & _ & _ & F4 & F5 & _). fold f in F1, F4, F5.
  unfold r_cluster. rewrite F1, F4, F5. exact HR2.
Qed.

(** ** Quality *)
(** The statistic depends on the residuals, the uncertainties and the number of free
    parameters, as for AIC and AICc. *)
Definition residual (c : cluster) : list Z :=
  vsub w (vsub w (y_cluster c) (valuebl w (c_base c) (r_cluster c))) (vsum w (r_cluster c) (c_model c)).

Lemma vsub_vadd a : (forall x, w_rnd w x = x) -> forall u v, vsub w a (vadd w u v) = vsub w (vsub w a u) v.
Proof.
  intros ID. unfold vsub, vadd. induction a as [|x a IH]; intros [|y u] [|z v]; cbn [combine map fst snd]; try reflexivity.
  rewrite !ID, IH. f_equal. lia.
Qed.
Lemma vadd_assoc a : (forall x, w_rnd w x = x) -> forall u v, vadd w (vadd w a u) v = vadd w a (vadd w u v).
Proof.
  intros ID. unfold vadd. induction a as [|x a IH]; intros [|y u] [|z v]; cbn [combine map fst snd]; try reflexivity.
  rewrite !ID, IH. f_equal. lia.
Qed.
Lemma vadd_zeros (ID : forall x, w_rnd w x = x) (r : list Z) : forall a, (length a <= length r)%nat -> vadd w a (map (fun _ => 0) r) = a.
Proof.
  unfold vadd. induction r as [|x r IH]; intros [|y a] H; cbn [map combine fst snd length] in *; try reflexivity; [lia|].
  rewrite ID, IH by lia. f_equal. lia.
Qed.
Lemma vsub_zeros (ID : forall x, w_rnd w x = x) (r : list Z) : forall a, (length a <= length r)%nat -> vsub w a (map (fun _ => 0) r) = a.
Proof.
  unfold vsub. induction r as [|x r IH]; intros [|y a] H; cbn [map combine fst snd length] in *; try reflexivity; [lia|].
  rewrite ID, IH by lia. f_equal. lia.
Qed.
Lemma vsub_len a : forall b, length (vsub w a b) = Nat.min (length a) (length b).
Proof. intros b. unfold vsub. now rewrite map_length, combine_length. Qed.
Lemma vadd_len a : forall b, length (vadd w a b) = Nat.min (length a) (length b).
Proof. intros b. unfold vadd. now rewrite map_length, combine_length. Qed.
Lemma vsum_fold (ID : forall x, w_rnd w x = x) r ps : forall acc, (length acc <= length r)%nat ->
  fold_left (fun acc p => vadd w acc (w_pvalue w p r)) ps acc = vadd w acc (vsum w r ps).
Proof.
  unfold vsum. induction ps as [|p ps IH]; intros acc H; cbn [fold_left]; [now rewrite vadd_zeros|].
  rewrite IH by (rewrite vadd_len; lia). rewrite (IH (vadd w (map _ r) _)) by (rewrite vadd_len, map_length; lia).
  rewrite <- !vadd_assoc by exact ID. f_equal. f_equal. symmetry. apply vadd_zeros; [exact ID|exact H].
Qed.
Lemma vsum_app (ID : forall x, w_rnd w x = x) r a b : vsum w r (a ++ b) = vadd w (vsum w r a) (vsum w r b).
Proof.
  unfold vsum at 1. rewrite fold_left_app. rewrite vsum_fold; [reflexivity|exact ID|].
  assert (G : forall acc, (length acc <= length r)%nat -> (length (fold_left (fun acc p => vadd w acc (w_pvalue w p r)) a acc) <= length r)%nat).
  { induction a as [|p a IH]; intros acc H; cbn [fold_left]; [exact H|]. apply IH. rewrite vadd_len. lia. }
  apply G. now rewrite map_length.
Qed.
Lemma list_sum_nat_app a b : list_sum_nat (a ++ b) = (list_sum_nat a + list_sum_nat b)%nat.
Proof. unfold list_sum_nat. induction a as [|x a IH]; [reflexivity|]. cbn. rewrite IH. lia. Qed.
Lemma npars_app cf a b : model_npars w cf (a ++ b) = (model_npars w cf a + model_npars w cf b)%nat.
Proof. unfold model_npars. rewrite map_app. apply list_sum_nat_app. Qed.
Lemma npars_le m : (forall p, (w_p_npars w false p <= w_p_npars w true p)%nat) -> (model_npars w false m <= model_npars w true m)%nat.
Proof. intros H. unfold model_npars, list_sum_nat. induction m as [|p m IH]; [cbn; lia|]. cbn. specialize (H p). lia. Qed.

(** With exact arithmetic the local fit's residual is that of the reassembled model, and
    the number of parameters charged to it is never too small. *)
Lemma local_sound (ID : forall x, w_rnd w x = x) rc yn best i p l : (length yn <= length rc)%nat ->
  nth_error best i = Some p -> (forall p, (w_p_npars w false p <= w_p_npars w true p)%nat) ->
  vsub w (local_y w rc yn best i) (vsum w rc l) =
  vsub w yn (vsum w rc (firstn (window_lo i) best ++ l ++ skipn (window_hi i (length best)) best)) /\
  (model_npars w false (firstn (window_lo i) best ++ l ++ skipn (window_hi i (length best)) best) <= model_npars w false l + addpars w best i)%nat.
Proof.
  intros LY N FP. destruct (local_model_perm best i p N) as (front & back & EB & EF & EK).
  specialize (EK (length best) (le_n _)). rewrite <- EF, <- EK. split.
  - unfold local_y. rewrite <- EF, <- EK.
    assert (Y1 : (if (0 <? window_lo i)%nat then vsub w yn (vsum w rc front) else yn) = vsub w yn (vsum w rc front)).
    { destruct (Nat.ltb_spec 0 (window_lo i)) as [|Z]; [reflexivity|]. assert (window_lo i = 0%nat) as Z2 by lia.
      assert (front = []) as -> by (rewrite EF, Z2; reflexivity). unfold vsum. cbn [fold_left]. symmetry. now apply vsub_zeros. }
    rewrite Y1. set (y1 := vsub w yn _). assert (L1 : (length y1 <= length rc)%nat) by (unfold y1; rewrite vsub_len; lia).
    assert (Y2 : (if (window_hi i (length best) <? length best)%nat then vsub w y1 (vsum w rc back) else y1) = vsub w y1 (vsum w rc back)).
    { destruct (Nat.ltb_spec (window_hi i (length best)) (length best)) as [|Z]; [reflexivity|].
      assert (back = []) as -> by (rewrite EK; apply skipn_all2; lia). unfold vsum. cbn [fold_left]. symmetry. now apply vsub_zeros. }
    rewrite Y2. unfold y1. rewrite !vsum_app by exact ID. rewrite <- !vsub_vadd by exact ID. f_equal. f_equal.
    unfold vadd. clear. generalize (vsum w rc back) as u, (vsum w rc l) as v. induction u as [|x u IH]; intros [|y v]; cbn [combine map fst snd]; try reflexivity.
    rewrite IH. f_equal. f_equal. lia.
  - unfold addpars. rewrite N. set (loc := local_model best i).
    assert (AB : model_npars w true best = (model_npars w true front + model_npars w true loc + w_p_npars w true p + model_npars w true back)%nat).
    { rewrite EB at 1. unfold loc, local_model. rewrite !npars_app. 
      change (p :: slice best (i + 1) (window_hi i (length best)) ++ back) with ([p] ++ slice best (i + 1) (window_hi i (length best)) ++ back).
      rewrite !npars_app. unfold model_npars at 3. cbn [map list_sum_nat fold_right]. lia. }
    rewrite AB, !npars_app. pose proof (npars_le front FP). pose proof (npars_le back FP). specialize (FP p). lia.
Qed.

Lemma fit_empty c nt : c_model c = [] -> fr_c (fit w c false nt false false) = c.
Proof. intros M. unfold fit. destruct (c_never c); [reflexivity|]. rewrite M. reflexivity. Qed.

(** ** Prune never makes the model worse -- provided no fit is reverted or abandoned. *)
Theorem C110_prune_never_worse :
  forall F : list Z -> list Z -> nat -> Q,
  argsort_ok (w_argsort w) -> engine_shape w lab -> argmax_ok (w_qlt w) qargmax ->
  (* the statistic: a function of residuals, uncertainties and number of parameters ... *)
  (forall c k, qk c k = F (residual c) (e_cluster c) (model_npars w false (c_model c) + k)%nat) ->
  (forall c, w_quality w c = qk c 0) ->
  (* ... for which more parameters never help *)
  (forall r e k k', (k <= k')%nat -> w_qlt w (F r e k) (F r e k') = false) ->
  (* comparison of evaluators is a strict weak order *)
  (forall a b, w_qlt w a b = true -> w_qlt w b a = false) ->
  (forall a b c, w_qlt w a b = true -> w_qlt w c b = false -> w_qlt w a c = true) ->
  (* exact arithmetic; peaks have no more free parameters than parameters *)
  (forall x, w_rnd w x = x) -> (forall p, (w_p_npars w false p <= w_p_npars w true p)%nat) ->
  forall (c : cluster) fuel m out, length (adat (c_y c)) = length (adat (c_r c)) -> length (adat (c_e c)) = length (adat (c_r c)) ->
    (* the list given to a fit holds the resulting model, that is, no fit was undone *)
    (forall c' nt, r_cluster c' = r_cluster c -> e_cluster c' = e_cluster c ->
       fr_list (fit w c' false nt false false) = c_model (fr_c (fit w c' false nt false false))) ->
    prune w qk qargmax fuel c = Some (m, out) ->
    m = c_model c \/ w_qlt w (w_quality w c) (w_quality w (set_model c m)) = true.
Proof.
  intros F AS ES AM QF Q0 QM ASY QT ID FP c fuel m out Ly Le NR. unfold prune.
  destruct (c_model c) as [|p0 m0] eqn:M; [intros [= <- _]; now left|]. rewrite <- M. clear M p0 m0.
  set (rc := r_cluster c). set (yn := vsub w _ _). set (ec := e_cluster c).
  destruct (make_cluster w [] None _ _ _ None _ _) as [mc0|] eqn:MK; [|intros [= <- _]; now left].
  assert (LE : length ec = length rc) by (unfold ec, rc, e_cluster, r_cluster; rewrite !slice_length; lia).
  assert (LY : (length yn <= length rc)%nat).
  { unfold yn. rewrite vsub_len. unfold y_cluster, rc, r_cluster. rewrite !slice_length. lia. }
  set (good := fun mc : cluster => r_cluster mc = rc /\ e_cluster mc = ec /\ c_base mc = None /\ c_start mc = 0%nat /\ c_stop mc = length rc).
  assert (G0 : good mc0).
  { unfold make_cluster, change_slice_from in MK. destruct (all_below _ _ _ _ _); [|discriminate]. injection MK as <-.
    unfold good, r_cluster, e_cluster, slice. cbn [c_r c_e c_base c_start c_stop adat]. rewrite !Nat.sub_0_r. cbn [skipn]. rewrite <- LE at 2. now rewrite !firstn_all. }
  clear MK.
  assert (GF : forall mc nt, good mc -> good (fr_c (fit w mc false nt false false))).
  { intros mc nt (G1 & G2 & G3 & G4 & G5). pose proof (C37_fit_never_worse w AS mc false nt false false) as CF. cbv zeta in CF.
    destruct CF as ((F1 & F2 & F3 & F4 & F5 & _) & c1 & HC & HO).
    assert (BN : c_base (fr_c (fit w mc false nt false false)) = None).
    { clear - G3. unfold fit. destruct (c_never mc); [exact G3|]. destruct (c_model mc) eqn:M; [exact G3|]. cbn [andb].
      destruct (w_engine w _ _ _ _) as [[ps ob] o]. destruct o as [[]|e]; [|destruct e; exact G3].
      destruct (cleanfit w _ _ _) as [[ps2 n]|]; [|exact G3]. destruct (w_qlt w _ _); exact G3. }
    unfold good, r_cluster, e_cluster in *. rewrite F1, F3, F4, F5. auto. }
  (* the quality of a good cluster with model m and data y *)
  assert (QV : forall mc md y k, good mc -> (length y <= length rc)%nat ->
     qk (set_y (set_model mc md) (mkArr 0 y)) k = F (vsub w y (vsum w rc md)) ec (model_npars w false md + k)%nat).
  { intros mc md y k (G1 & G2 & G3 & G4 & G5) HL. rewrite QF. unfold residual, valuebl.
    cbn [set_y set_model c_model c_base]. unfold r_cluster, y_cluster, e_cluster in *. cbn [set_y set_model c_r c_y c_e c_start c_stop adat].
    rewrite G3. fold rc. rewrite G1, G2. do 2 f_equal. rewrite G4, G5. unfold slice. rewrite Nat.sub_0_r. cbn [skipn].
    rewrite firstn_all2 by exact HL. now apply vsub_zeros. }
  assert (FV : forall mc y nt k, good mc -> (length y <= length rc)%nat -> adat (c_y mc) = y ->
     let f := fit w mc false nt false false in
     good (fr_c f) /\ qk (fr_c f) k = F (vsub w y (vsum w rc (c_model (fr_c f)))) ec (model_npars w false (c_model (fr_c f)) + k)%nat).
  { intros mc y nt k G HL EY f. pose proof (GF mc nt G) as G'. fold f in G'. split; [exact G'|].
    assert (Y' : c_y (fr_c f) = c_y mc) by (apply (fit_frame w AS mc false nt false false)).
    destruct G' as (A1 & A2 & A3 & A4 & A5). rewrite QF. unfold residual, valuebl. rewrite A3, A1, A2. do 2 f_equal.
    unfold y_cluster. rewrite Y', A4, A5, EY. unfold slice. rewrite Nat.sub_0_r. cbn [skipn]. rewrite firstn_all2 by exact HL. now apply vsub_zeros. }
  assert (CG : forall best bq is mc mc' cks qs, good mc -> check_peaks w qk best bq rc yn is mc = Ok (mc', cks, qs) -> good mc' /\
     (forall j i l, nth_error is j = Some i -> nth_error cks j = Some (Some l) ->
        In (i, F (vsub w (local_y w rc yn best i) (vsum w rc l)) ec (model_npars w false l + addpars w best i)%nat) qs)).
  { intros best bq. induction is as [|i is IH]; intros mc mc' cks qs G E; cbn [check_peaks] in E.
    - injection E as <- <- <-. split; [exact G|]. intros [|] ? ? [=].
    - destruct (nth_error best i) as [p|]; [|discriminate]. destruct (w_removable w p).
      + set (mc1 := set_y _ _) in E. set (f := fit w mc1 _ _ _ _) in E. destruct (fr_out f); [|discriminate].
        assert (LL : (length (local_y w rc yn best i) <= length rc)%nat).
        { unfold local_y. destruct (_ <? _)%nat; destruct (_ <? _)%nat; rewrite ?vsub_len; lia. }
        destruct (FV mc1 (local_y w rc yn best i) (Nat.sqrt (length rc) + 50)%nat (addpars w best i) G LL eq_refl) as [Gf QV2]. fold f in Gf, QV2.
        destruct (check_peaks w qk best bq rc yn is (fr_c f)) as [[[mc2 ck] q2]|] eqn:E2; cbn [bind] in E; [|discriminate].
        injection E as <- <- <-. destruct (IH _ _ _ _ Gf E2) as [G2 H2]. split; [exact G2|].
        intros [|j] i' l Nj Nc; cbn [nth_error] in *; [|right; eauto].
        injection Nj as <-. left. destruct (w_qlt w _ bq); [discriminate|]. injection Nc as <-. unfold f in *. rewrite NR, QV2; [reflexivity|apply G|apply G].
      + destruct (check_peaks w qk best bq rc yn is mc) as [[[mc2 ck] q2]|] eqn:E2; cbn [bind] in E; [|discriminate].
        injection E as <- <- <-. destruct (IH _ _ _ _ G E2) as [G2 H2]. split; [exact G2|].
        intros [|j] i' l Nj Nc; cbn [nth_error] in *; [discriminate|eauto]. }
  set (qual := fun md => F (vsub w yn (vsum w rc md)) ec (model_npars w false md + 0)%nat).
  assert (QC : forall md, w_quality w (set_model c md) = qual md).
  { intros md. rewrite Q0, QF. unfold residual, qual. cbn [set_model c_model c_base]. reflexivity. }
  assert (QC0 : w_quality w c = qual (c_model c)) by (rewrite <- QC; now destruct c).
  rewrite QC, QC0.
  generalize (map (w_removable w) (c_model c)) as live. intros live.
  assert (IT : forall fuel best norig mc live m out, (length best <= norig)%nat -> good mc ->
    prune_loop w qk qargmax fuel rc yn best best norig (qual best) mc live = Some (m, out) ->
    m = best \/ w_qlt w (qual best) (qual m) = true); [|apply IT; auto].
  clear G0 mc0 live fuel m out QC QC0.
  induction fuel as [|fuel IH]; intros best norig mc live m out Hn G E; [discriminate|]. cbn [prune_loop] in E.
  destruct (negb _); [injection E as <- _; now left|].
  destruct (check_peaks w qk best (qual best) rc yn (seq 0 (length best)) mc) as [[[mc1 cks] qs]|] eqn:CP; [|injection E as <- _; now left].
  destruct (CG _ _ _ _ _ _ _ G CP) as [G1 CQ].
  destruct (check_peaks_spec w qk lab AS ES _ _ _ _ _ _ _ _ _ CP) as (L1 & L2 & L3 & _).
  destruct qs as [|q0 qs'] eqn:EQ; [injection E as <- _; now left|]. rewrite <- EQ in *. 
  assert (QN : map snd qs <> []) by (rewrite EQ; discriminate). clear EQ q0 qs'.
  destruct (AM (map snd qs) QN) as (nq & NQ & MX). rewrite nth_error_map in NQ.
  destruct (nth_error qs (qargmax (map snd qs))) as [[idx nq']|] eqn:NI; [|discriminate]. cbn in NQ. injection NQ as ->.
  destruct (w_qlt w (qual best) nq) eqn:QL; [|injection E as <- _; now left].
  destruct (nth_error cks idx) as [[l|]|] eqn:NC; try (injection E as <- _; now left).
  set (c2 := set_y _ _) in E. set (f := fit w c2 false 0 false false) in E.
  destruct (fr_out f) as [o|] eqn:FO; [|injection E as <- _; now left].
  assert (II : (idx < length best)%nat) by (apply nth_error_In, L2, in_seq in NI; lia).
  destruct (L3 idx idx (nth_seq _ _ II)) as (o' & p & A1 & A2 & A3 & A4).
  destruct (local_model_perm best idx p A2) as (front & back & EB & EF & EK).
  assert (EK' : skipn (window_hi idx norig) best = skipn (window_hi idx (length best)) best) by (rewrite <- (EK norig Hn); apply EK; lia).
  assert (QL2 : w_qlt w (qual best) (F (vsub w (local_y w rc yn best idx) (vsum w rc l)) ec (model_npars w false l + addpars w best idx)%nat) = true).
  { (* the maximal quality is not below the one of the chosen index *)
    pose proof (CQ idx idx l (nth_seq _ _ II) NC) as IN.
    eapply QT; [exact QL|].
    assert (UQ : F (vsub w (local_y w rc yn best idx) (vsum w rc l)) ec (model_npars w false l + addpars w best idx)%nat = nq).
    { assert (U : forall is mc mc' cks qs, check_peaks w qk best (qual best) rc yn is mc = Ok (mc', cks, qs) -> NoDup is -> NoDup (map fst qs) /\ forall i, In i (map fst qs) -> In i is).
      { clear. induction is as [|i is IH]; intros mc mc' cks qs E ND; cbn [check_peaks] in E.
        - injection E as <- <- <-. split; [constructor|intros i []].
        - inversion ND as [|? ? N1 N2]; subst. destruct (nth_error best i); [|discriminate]. destruct (w_removable w _).
          + destruct (fr_out _); [|discriminate]. destruct (check_peaks _ _ _ _ _ _ _ _) as [[[mc9 ck9] qs9]|] eqn:E2; [|discriminate]. cbn [bind] in E. injection E as <- <- <-.
            destruct (IH _ _ _ _ E2 N2) as [G1 G2]. cbn [map fst]. split; [constructor; auto|]. intros j [<-|Hj]; [now left|right; auto].
          + destruct (check_peaks _ _ _ _ _ _ _ _) as [[[mc9 ck9] qs9]|] eqn:E2; [|discriminate]. cbn [bind] in E. injection E as <- <- <-.
            destruct (IH _ _ _ _ E2 N2) as [G1 G2]. split; [exact G1|]. intros j Hj. right. auto. }
      destruct (U _ _ _ _ _ CP (seq_NoDup _ _)) as [ND _]. apply nth_error_In in NI.
      set (q := F _ _ _) in *. clearbody q. clear - ND NI IN. revert ND NI IN. induction qs as [|[i x] qs IH]; intros ND NI IN; [destruct IN|].
      cbn [map fst] in ND. inversion ND as [|? ? N1 N2]; subst. destruct NI as [E|NI], IN as [E'|IN].
      - congruence.
      - exfalso. apply N1. injection E as -> ->. apply in_map_iff. exists (idx, q). auto.
      - exfalso. apply N1. injection E' as -> ->. apply in_map_iff. exists (idx, nq). auto.
      - auto. }
    rewrite UQ. apply MX. apply in_map_iff. exists (idx, nq). split; [reflexivity|]. now apply nth_error_In in NI. }
  destruct (local_sound ID rc yn best idx p l LY A2 FP) as [RS KS]. rewrite RS in QL2.
  assert (QL3 : w_qlt w (qual best) (qual (c_model c2)) = true).
  { unfold c2. cbn [set_y set_model c_model]. rewrite EK'. eapply QT; [exact QL2|]. unfold qual. rewrite Nat.add_0_r. apply QM. exact KS. }
  destruct (FV c2 yn 0%nat 0%nat) as [Gf QF2]; [exact G1|exact LY|reflexivity|]. fold f in Gf, QF2.
  assert (QL4 : w_qlt w (qual best) (qual (c_model (fr_c f))) = true).
  { destruct (c_model c2) as [|z zs] eqn:M2; [rewrite <- M2 in QL3|].
    { unfold f. rewrite fit_empty by exact M2. exact QL3. }
    assert (MN : c_model c2 <> []) by (rewrite M2; discriminate). rewrite <- M2 in QL3. clear z zs M2.
    pose proof (C37_fit_never_worse w AS c2 false 0 false false) as CF. cbv zeta in CF. fold f in CF. destruct CF as (_ & c1 & HC & HO).
    destruct HC as [->|(M0 & _)]; [|contradiction].
    rewrite FO in HO. destruct o as [q|].
    - destruct HO as (-> & HQ & _). eapply QT; [exact QL3|]. rewrite !Q0 in HQ. rewrite QF2 in HQ.
      assert (X : qk c2 0 = qual (c_model c2)) by (unfold c2; rewrite QV by (exact G1 || exact LY); reflexivity). rewrite X in HQ. exact HQ.
    - destruct HO as [-> _]. exact QL3. }
  assert (QB : w_quality w (fr_c f) = qual (c_model (fr_c f))) by (rewrite Q0; exact QF2).
  destruct (c_model (fr_c f)) as [|p1 m1] eqn:CM.
  - injection E as <- _. right. exact QL4.
  - rewrite <- CM in *. rewrite QB in E. apply IH in E; [| |exact Gf].
    + right. destruct E as [->|E]; [exact QL4|]. eapply QT; [exact QL4|]. now apply ASY.
    + pose proof (fit_kept w lab AS ES c2 false 0) as [FK _]. fold f in FK. apply kept_len in FK.
      rewrite NC in A1. injection A1 as <-. destruct (w_removable w p) eqn:RM; [|discriminate (A3 eq_refl)].
      destruct (A4 eq_refl) as (q & _ & _ & KL). specialize (KL l eq_refl). apply kept_len in KL. unfold local_model in KL.
      assert (LB : (length (c_model c2) < length best)%nat).
      { unfold c2. cbn [set_y set_model c_model]. rewrite <- EF, <- (EK norig Hn).
        apply (f_equal (@length P)) in EB. rewrite !app_length in *. cbn [length] in EB. rewrite app_length in EB. lia. }
      lia.
Qed.
End Props.
Print Assumptions C42_terminates_removing_only_removable.
Print Assumptions C42_normal_return.
Print Assumptions C110_prune_never_worse.

(** ** A concrete world: peaks (position, height, removable) with three free parameters
    each; quality = - sum |residual| - number of parameters. *)
Definition yF (r e : list Z) (k : nat) : Z := - fold_right Z.add 0 (map Z.abs r) - Z.of_nat k.
Definition yqk (c : cluster xpeak Z) (k : nat) : Z :=
  yF (residual (xworld idle) c) (e_cluster c) (model_npars (xworld idle) false (c_model c) + k)%nat.
Definition yworld (nan : xpeak -> bool) (engine : list xpeak -> option Z -> cluster xpeak Z -> nat -> (list xpeak * option Z) * result unit) : world xpeak Z Z :=
  mkWorld (fun x => x) (fun p => fst (fst p)) snd nan
    xvalue (fun cf p => 3%nat) (fun cf b => 1%nat) (fun b r => map (fun _ => b) r) Z.eqb isort (fun _ => 3%nat)
    (fun c => yqk c 0) Z.ltb (fun _ _ _ => false) (fun c => Ok (Some (xp 2 9 true))) engine (fun a b => (a + b) / 2) (fun _ _ m => m).
Definition nan0 (p : xpeak) : bool := match fst (fst p) with None => true | _ => false end.

Fixpoint find_idx (m : Z) (l : list Z) : nat := match l with [] => 0 | a :: r => if a =? m then 0 else S (find_idx m r) end.
Definition zargmax (l : list Z) : nat := match pymax l with Ok m => find_idx m l | Err _ => 0%nat end.
Lemma zargmax_ok : argmax_ok Z.ltb zargmax.
Proof.
  intros l H. destruct l as [|a r]; [contradiction|]. unfold zargmax. cbn [pymax].
  destruct (fold_max_spec r a) as (H1 & H2 & H3). set (m := fold_left _ r a) in *. exists m. split.
  - clear - H3. revert H3. generalize (a :: r) as l. induction l as [|x l IH]; [intros []|]. cbn [find_idx]. intros [->|I].
    + now rewrite Z.eqb_refl.
    + destruct (Z.eqb_spec x m) as [->|]; [reflexivity|]. cbn. now apply IH.
  - intros q [<-|I]; apply Z.ltb_ge; auto.
Qed.

Definition ygrid := mkArr 0 [0; 1; 2; 3; 4; 5].
Definition yerr := mkArr 2 [3; 3; 3; 3; 3; 3].
(** Peaks: A (removable, useless), N (protected, explains the data), B (removable, outside
    and silent). *)
Definition yc1 : cluster xpeak Z := mkC [xp 1 1 true; xp 2 9 false; xp 9 1 true] None ygrid (mkArr 1 [0; 0; 9; 0; 0; 0]) yerr 0 6 false 0 0 [7%nat].

(** prune raises IndexError once only protected peaks are left: after A is gone the clean-up
    drops B too, and the next round takes the last element of an empty array. *)
Theorem C86_index_error_refuted :
  let w := yworld nan0 idle in
  argsort_ok (w_argsort w) /\ engine_shape w snd /\ engine_tame w /\ argmax_ok (w_qlt w) zargmax /\
  prune w yqk zargmax 10 yc1 = Some ([xp 2 9 false], Err IndexError).
Proof.
  cbv zeta. split; [exact isort_ok|]. split; [|split; [|split; [exact zargmax_ok|reflexivity]]].
  - intros m b c n ps b' out E. cbn in E. unfold idle in E. injection E as <- _ _. induction m; constructor; auto.
  - intros m b c n ps b' e _ E. discriminate.
Qed.
Print Assumptions C86_index_error_refuted.

(** An optimiser that gives up when the number of evaluations is limited (as it is in
    prune), leaving its last trial values in the peaks. *)
Definition gives_up : list xpeak -> option Z -> cluster xpeak Z -> nat -> (list xpeak * option Z) * result unit :=
  fun m b _ n => if (0 <? n)%nat then ((map (fun p : xpeak => (fst (fst p), 100, snd p)) m, b), Err FitError) else ((m, b), Ok tt).
Definition yc2 : cluster xpeak Z := mkC [xp 1 1 true; xp 2 9 true] None ygrid (mkArr 1 [0; 0; 9; 0; 0; 0]) yerr 0 6 false 0 0 [7%nat].

(** The quality of the reverted model is compared, but the abandoned trial values are
    installed: the model ends worse (-94 instead of -7). *)
Theorem C86_never_worse_refuted :
  let w := yworld (fun _ => false) gives_up in
  argsort_ok (w_argsort w) /\ engine_shape w snd /\ engine_tame w /\ engine_no_nan w /\ argmax_ok (w_qlt w) zargmax /\
  (forall p, In p (c_model yc2) -> w_removable w p = true) /\
  exists m, prune w yqk zargmax 10 yc2 = Some (m, Ok tt) /\ m = [xp 2 100 true] /\
    w_quality w yc2 = -7 /\ w_quality w (set_model yc2 m) = -94.
Proof.
  cbv zeta. split; [exact isort_ok|]. split; [|split; [|split; [|split; [exact zargmax_ok|split]]]].
  - intros m b c n ps b' out E. cbn in E. unfold gives_up in E.
    destruct (0 <? n)%nat; injection E as <- _ _; induction m; constructor; auto.
  - intros m b c n ps b' e _ E. cbn in E. unfold gives_up in E. destruct (0 <? n)%nat; [now injection E as _ _ <-|discriminate].
  - intros m b c n ps b' E p Hp. reflexivity.
  - intros p [<-|[<-|[]]]; reflexivity.
  - exists [xp 2 100 true]. repeat split; vm_compute; reflexivity.
Qed.
Print Assumptions C86_never_worse_refuted.

(** A protected peak is lost if the optimiser leaves a NaN in it. *)
Definition nan_out : list xpeak -> option Z -> cluster xpeak Z -> nat -> (list xpeak * option Z) * result unit :=
  fun m b _ _ => ((map (fun p : xpeak => (if snd p then fst (fst p) else None, snd (fst p), snd p)) m, b), Ok tt).
Definition yc3 : cluster xpeak Z := mkC [xp 1 1 true; xp 2 1 false; xp 3 9 true] None ygrid (mkArr 1 [0; 0; 0; 9; 0; 0]) yerr 0 6 false 0 0 [7%nat].
Theorem C86_protected_nan_refuted :
  let w := yworld nan0 nan_out in
  argsort_ok (w_argsort w) /\ engine_shape w snd /\ engine_tame w /\ argmax_ok (w_qlt w) zargmax /\
  prune w yqk zargmax 10 yc3 = Some ([xp 3 9 true], Ok tt).
Proof.
  cbv zeta. split; [exact isort_ok|]. split; [|split; [|split; [exact zargmax_ok|vm_compute; reflexivity]]].
  - intros m b c n ps b' out E. cbn in E. unfold nan_out in E. injection E as <- _ _. induction m; constructor; auto.
  - intros m b c n ps b' e _ E. discriminate.
Qed.
Print Assumptions C86_protected_nan_refuted.

(** ** The hypotheses are met. *)
Lemma y_shape nan : engine_shape (yworld nan idle) (@snd (option Z * Z) bool).
Proof. intros m b c n ps b' out E. cbn in E. unfold idle in E. injection E as <- _ _. induction m; constructor; auto. Qed.

(** Normal return with all peaks removable: the useless peaks go. *)
Example C42_nonvacuous_return :
  let c : cluster xpeak Z := mkC [xp 1 1 true; xp 2 9 true; xp 9 1 true] None ygrid (mkArr 1 [0; 0; 9; 0; 0; 0]) yerr 0 6 false 0 0 [7%nat] in
  prune (yworld nan0 idle) yqk zargmax 4 c = Some ([xp 2 9 true], Ok tt) /\
  engine_tame (yworld nan0 idle) /\ (forall a b, w_qlt (yworld nan0 idle) a b = true -> w_qlt (yworld nan0 idle) b a = false) /\
  (c_start c < c_stop c <= length (adat (c_r c)))%nat /\ (forall p, In p (c_model c) -> w_removable (yworld nan0 idle) p = true).
Proof.
  cbv zeta. split; [vm_compute; reflexivity|]. split; [intros m b c n ps b' e _ E; discriminate|]. split.
  - cbn. intros a b H. apply Z.ltb_lt in H. apply Z.ltb_ge. lia.
  - split; [cbn; lia|]. intros p [<-|[<-|[<-|[]]]]; reflexivity.
Qed.

(** The quality theorem, with curves |height| and uncertainties 0: nothing is ever
    silent, so the idle optimiser is never undone. *)
Definition zvalue (p : xpeak) (r : list Z) : list Z := xvalue (fst (fst p), Z.abs (snd (fst p)), snd p) r.
Definition zw (quality : cluster xpeak Z -> Z) : world xpeak Z Z :=
  mkWorld (fun x => x) (fun p => fst (fst p)) snd (fun _ => false)
    zvalue (fun cf p => 3%nat) (fun cf b => 1%nat) (fun b r => map (fun _ => b) r) Z.eqb isort (fun _ => 3%nat)
    quality Z.ltb (fun _ _ _ => false) (fun c => Ok (Some (xp 2 9 true))) idle (fun a b => (a + b) / 2) (fun _ _ m => m).
Definition zw0 := zw (fun _ => 0).
Definition zqk (c : cluster xpeak Z) (k : nat) : Z := yF (residual zw0 c) (e_cluster c) (model_npars zw0 false (c_model c) + k)%nat.
Definition zworld := zw (fun c => zqk c 0).

Lemma vadd_swap (a b d : list Z) : vadd zw0 a (vadd zw0 b d) = vadd zw0 b (vadd zw0 a d).
Proof.
  rewrite <- !vadd_assoc by reflexivity. f_equal. unfold vadd. revert b. induction a as [|x a IH]; intros [|y b]; cbn [combine map fst snd]; try reflexivity.
  rewrite IH. f_equal. cbn. lia.
Qed.
Lemma vsum_perm r m m' : Permutation m m' -> vsum zw0 r m = vsum zw0 r m'.
Proof.
  intros H. assert (ID : forall x, w_rnd zw0 x = x) by reflexivity.
  assert (C1 : forall p ps, vsum zw0 r (p :: ps) = vadd zw0 (vsum zw0 r [p]) (vsum zw0 r ps)).
  { intros p ps. apply (vsum_app zw0 ID r [p] ps). }
  induction H as [|p l l' _ IH|p q l|l1 l2 l3 _ IH1 _ IH2]; [reflexivity|rewrite C1, (C1 p l'), IH; reflexivity| |congruence].
  rewrite (C1 q (p :: l)), (C1 p l), (C1 p (q :: l)), (C1 q l). apply vadd_swap.
Qed.
Definition yc4 : cluster xpeak Z :=
  mkC [xp 1 1 true; xp 2 9 true; xp 4 1 false] None ygrid (mkArr 1 [0; 0; 9; 0; 0; 0]) (mkArr 2 [0; 0; 0; 0; 0; 0]) 0 6 false 0 0 [7%nat].

Lemma z_clean m : cleanfit zworld m [0; 1; 2; 3; 4; 5] [0; 0; 0; 0; 0; 0] = Ok (m, 0%nat).
Proof.
  unfold cleanfit, removed_indices. set (bad := fun i => _).
  assert (Z : filter bad (seq 0 (length m)) = []).
  { assert (NB : forall i, bad i = false).
    { intros i. unfold bad. cbn [w_has_nan zworld zw]. destruct (nth_error m i) as [p|]; [|rewrite andb_false_r; reflexivity].
      rewrite orb_false_r. apply andb_false_intro2. apply andb_false_intro2.
      set (l := vsub _ _ _). destruct (pymax l) as [v|] eqn:E; [|reflexivity].
      destruct (v <? 0) eqn:N; [|reflexivity]. exfalso. pose proof (proj1 (pymax_neg _ _ E) N) as H.
      assert (IN : In (hd 0 l) l) by (left; reflexivity). apply H in IN. revert IN. unfold l, vsub, w_pvalue, w_rnd, zworld, zw, zvalue, xvalue.
      cbn [map combine hd fst snd]. destruct (pos_eq (Some 0) _); lia. }
    induction (seq 0 (length m)) as [|a l IH]; [reflexivity|]. cbn [filter]. rewrite NB. exact IH. }
  cbn [bind]. rewrite Z. reflexivity.
Qed.

Example C42_nonvacuous_quality :
  (forall c k, zqk c k = yF (residual zworld c) (e_cluster c) (model_npars zworld false (c_model c) + k)%nat) /\
  (forall c, w_quality zworld c = zqk c 0) /\
  (forall r e k k', (k <= k')%nat -> w_qlt zworld (yF r e k) (yF r e k') = false) /\
  (forall a b, w_qlt zworld a b = true -> w_qlt zworld b a = false) /\
  (forall a b c, w_qlt zworld a b = true -> w_qlt zworld c b = false -> w_qlt zworld a c = true) /\
  (forall c' nt, r_cluster c' = r_cluster yc4 -> e_cluster c' = e_cluster yc4 ->
       fr_list (fit zworld c' false nt false false) = c_model (fr_c (fit zworld c' false nt false false))) /\
  prune zworld zqk zargmax 10 yc4 = Some ([xp 2 9 true; xp 4 1 false], Ok tt) /\
  w_quality zworld yc4 = -11 /\ w_quality zworld (set_model yc4 [xp 2 9 true; xp 4 1 false]) = -7.
Proof.
  split; [reflexivity|]. split; [reflexivity|]. split; [|split; [|split; [|split; [|vm_compute; auto]]]].
  - intros r e k k' H. cbn. apply Z.ltb_ge. unfold yF. lia.
  - cbn. intros a b H. apply Z.ltb_lt in H. apply Z.ltb_ge. lia.
  - cbn. intros a b c H1 H2. apply Z.ltb_lt in H1. apply Z.ltb_ge in H2. apply Z.ltb_lt. lia.
  - intros c nt HR HE. change (r_cluster yc4) with [0; 1; 2; 3; 4; 5] in HR. change (e_cluster yc4) with [0; 0; 0; 0; 0; 0] in HE.
    unfold fit. destruct (c_never c); [reflexivity|]. destruct (c_model c) as [|p m] eqn:M; [reflexivity|]. cbn [andb].
    set (c2 := set_last c (c_size c)). change (w_engine zworld) with idle. unfold idle.
    change (r_cluster c2) with (r_cluster c). change (e_cluster c2) with (e_cluster c). rewrite HR, HE, z_clean.
    change (c_model c2) with (c_model c).
    assert (QE : w_quality zworld (set_base (set_model c2 (sort_peaks zworld (c_model c))) (c_base c2)) = w_quality zworld c).
    { change (w_quality zworld) with (fun c => zqk c 0). cbv beta. unfold zqk, residual.
      cbn [set_base set_model c_model c_base]. change (c_base c2) with (c_base c).
      assert (RR : r_cluster (set_base (set_model c2 (sort_peaks zworld (c_model c))) (c_base c)) = r_cluster c) by reflexivity.
      assert (YY : y_cluster (set_base (set_model c2 (sort_peaks zworld (c_model c))) (c_base c)) = y_cluster c) by reflexivity.
      assert (EE : e_cluster (set_base (set_model c2 (sort_peaks zworld (c_model c))) (c_base c)) = e_cluster c) by reflexivity.
      rewrite RR, YY, EE. pose proof (sort_perm zworld isort_ok (c_model c)) as PP. rewrite (vsum_perm _ _ _ PP).
      apply Permutation_length in PP.
      assert (G : forall a b : list xpeak, length a = length b -> model_npars zw0 false a = model_npars zw0 false b).
      { clear. unfold model_npars. induction a as [|x a IH]; intros [|y b] H; try discriminate; [reflexivity|]. cbn. do 3 f_equal. apply IH. now injection H. }
      rewrite (G _ _ PP). reflexivity. }
    rewrite QE. change (w_qlt zworld) with Z.ltb. rewrite Z.ltb_irrefl. reflexivity.
Qed.

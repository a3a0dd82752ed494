(** Property C54: the Nyquist resampling loop. *)
From Coq Require Import Reals Lra Permutation Sorted.
From Verif Require Import Prelude Evaluators EvaluatorsProps ModelCluster ModelClusterProofs ModelClusterProps Prune PruneProofs PruneProps AugmentProps Nyquist.
Open Scope R_scope.

Section Props.
Context {P B Q L : Type}.
Variable w : world P B Q.
Variable qk : cluster P B -> nat -> Q.
Variable qargmax : list Q -> nat.
Variable resampled : R -> result (array * array * array).
Variable bl : option B.
Variable em : nat.
Variable pf : list nat.
Variable span drn : R.
Variable lab : P -> L.
Notation cluster := (cluster P B).
Notation round := (round w qk qargmax resampled bl em pf).
Notation loop := (nyquist_loop w qk qargmax resampled bl em pf span drn).
Notation free := (free w).
Definition base_free : nat := match bl with None => 0 | Some b => w_b_npars w false b end.
Hypothesis AS : argsort_ok (w_argsort w).
Hypothesis ES : engine_shape w lab.
(** fitting a peak does not change how many of its parameters are free *)
Hypothesis FREE : forall p q, lab p = lab q -> w_p_npars w false p = w_p_npars w false q.

Lemma list_sum_perm (l l' : list nat) : Permutation l l' -> list_sum_nat l = list_sum_nat l'.
Proof. induction 1; cbn [list_sum_nat fold_right] in *; unfold list_sum_nat in *; lia. Qed.
Lemma list_sum_app (l l' : list nat) : list_sum_nat (l ++ l') = (list_sum_nat l + list_sum_nat l')%nat.
Proof. unfold list_sum_nat. induction l as [|a l IH]; cbn [app fold_right]; lia. Qed.
Lemma sig_npars : exists g : L * bool -> nat -> Prop, forall p, forall n, g (lab p, w_removable w p) n <-> n = w_p_npars w false p.
Proof.
  exists (fun k n => exists p, lab p = fst k /\ n = w_p_npars w false p). intros p n. cbn [fst]. split; [intros (q & E & ->); now apply FREE|intros ->; eauto].
Qed.
Lemma kept_free s m m' : kept w lab s m m' -> (model_npars w false m' <= model_npars w false m)%nat.
Proof.
  intros (rem & PM & _). unfold model_npars.
  (* read the numbers off the labels *)
  assert (G : forall l l' : list P, Permutation (sig w lab l) (sig w lab l') -> list_sum_nat (map (w_p_npars w false) l) = list_sum_nat (map (w_p_npars w false) l')).
  { intros l l' PL. unfold sig in PL. apply Permutation_sym, Permutation_map_inv in PL as (l2 & E & PL). rewrite (list_sum_perm _ _ (Permutation_map (w_p_npars w false) PL)).
    f_equal. clear PL. revert l2 E. induction l' as [|a l' IH]; intros [|b l2] E; try discriminate; [reflexivity|]. cbn [map] in *. injection E as E1 E2 E3. rewrite (IH _ E3). f_equal. symmetry. now apply FREE. }
  (* rem consists of labels of peaks of m *)
  assert (PR : exists l, Permutation m (l) /\ exists l1 l2, l = l1 ++ l2 /\ sig w lab l1 = sig w lab m' /\ sig w lab l2 = rem).
  { unfold sig in PM. apply Permutation_sym, Permutation_map_inv in PM as (l & E & PL). exists l. split; [exact PL|]. unfold sig.
    clear PL. revert l E. generalize (map (fun p => (lab p, w_removable w p)) m'). intros k. induction k as [|a k IH]; intros l E; cbn [app] in E.
    - exists [], l. split; [reflexivity|]. split; [reflexivity|]. now rewrite E.
    - destruct l as [|b l]; [discriminate|]. cbn [map] in E. injection E as E1 E2. destruct (IH l E2) as (l1 & l2 & -> & A & C). exists (b :: l1), l2. split; [reflexivity|]. split; [cbn [map]; congruence|exact C]. }
  destruct PR as (l & PL & l1 & l2 & -> & E1 & _). rewrite (list_sum_perm _ _ (Permutation_map (w_p_npars w false) PL)), map_app, list_sum_app, (G l1 m') by (rewrite E1; reflexivity). lia.
Qed.

Lemma make_model m r y e c : make_cluster w m bl r y e None em pf = Ok c -> c_model c = m /\ c_base c = bl.
Proof.
  unfold make_cluster. unfold change_slice_from. destruct (all_below w _ _ _ _); [|discriminate]. intros E. injection E as <-. split; reflexivity.
Qed.
Lemma fit_base c : c_base (fr_c (fit w c false 0 false true)) = c_base c.
Proof.
  unfold fit. destruct (c_never c); [reflexivity|].
  assert (E : forall c1 o, estimatepeak w c = (c1, o) -> c_base c1 = c_base c).
  { intros c1 o E. unfold estimatepeak in E. destruct (c_pf c); [now injection E as <- _|]. destruct (w_estimate w c) as [[p|]|]; try (now injection E as <- _).
    destruct (replacepeaks w (c_model c) [p] (Some 0%Z) (Some 0%Z)) as [m [u|x]]; injection E as <- _; reflexivity. }
  destruct (c_model c) as [|p0 m0] eqn:M.
  - destruct (estimatepeak w c) as [c1 o] eqn:EP. specialize (E c1 o eq_refl).
    destruct o as [b|x]; [|destruct x; exact E]. cbn [andb].
    destruct (w_engine w _ _ _ _) as [[ps ob] [[]|x]]; [|destruct x; exact E].
    destruct (cleanfit w _ _ _) as [[ps2 n]|x]; [|exact E]. destruct (w_qlt w _ _); [exact E|]. exact E.
  - cbn [andb]. destruct (w_engine w _ _ _ _) as [[ps ob] [[]|x]]; [|destruct x; reflexivity].
    destruct (cleanfit w _ _ _) as [[ps2 n]|x]; [|reflexivity]. destruct (w_qlt w _ _); reflexivity.
Qed.

Lemma round_spec dr c : exists o, round dr c = Some o /\
  (forall c', o = Ok c' -> c_base c' = bl /\ (c_model c <> [] -> kept w lab (engine_no_nan w) (c_model c) (c_model c'))).
Proof.
  unfold Nyquist.round. destruct (resampled dr) as [[[r2 y2] e2]|x]; [|eexists; split; [reflexivity|discriminate]].
  destruct (make_cluster w (c_model c) bl r2 y2 e2 None em pf) as [c1|x] eqn:EM; [|eexists; split; [reflexivity|discriminate]].
  destruct (make_model _ _ _ _ _ EM) as [M1 M2].
  destruct (fr_out (fit w c1 false 0 false true)) as [o|x]; [|eexists; split; [reflexivity|discriminate]].
  set (c2 := fr_c (fit w c1 false 0 false true)).
  destruct (C42_terminates_removing_only_removable w qk qargmax lab AS ES c2 (S (length (c_model c2)))) as (m & out & gone & -> & PM & G & _); [lia|].
  destruct out as [u|x]; [|eexists; split; [reflexivity|discriminate]]. eexists. split; [reflexivity|]. intros c' E. injection E as <-.
  split; [cbn [set_model c_base]; unfold c2; rewrite fit_base; exact M2|]. intros NE. cbn [set_model c_model].
  apply kept_trans with (c_model c2); [|exists gone; split; [exact PM|exact G]].
  unfold c2. rewrite fit_est by (rewrite M1; exact NE). rewrite <- M1. apply (fit_kept w lab AS ES c1 false 0).
Qed.

Lemma free_eq c : c_base c = bl -> free c = (model_npars w false (c_model c) + base_free)%nat.
Proof. intros H. unfold Nyquist.free, npars, base_free. rewrite H. reflexivity. Qed.

Hypothesis SPAN : 0 < span.
Hypothesis DRN : 0 < drn.

Lemma interval_coarse n : INR n < span / drn -> interval span drn n = drn.
Proof. intros H. unfold interval. apply Rltb_spec in H. now rewrite H. Qed.
Lemma interval_fine n : span / drn <= INR n -> interval span drn n = 9999 / 10000 * span / INR n /\ 0 < interval span drn n < drn /\ 0 < INR n.
Proof.
  intros H. unfold interval. destruct (Rltb (INR n) (span / drn)) eqn:E; [apply Rltb_spec in E; lra|].
  assert (0 < span / drn) by (apply Rdiv_lt_0_compat; assumption). assert (P0 : 0 < INR n) by lra. split; [reflexivity|]. split; [|exact P0].
  split; [apply Rdiv_lt_0_compat; lra|]. assert (span <= INR n * drn) by (apply Rmult_le_reg_r with (/ drn); [now apply Rinv_0_lt_compat|]; rewrite Rmult_assoc, Rinv_r by lra; rewrite Rmult_1_r; exact H).
  apply Rmult_lt_reg_r with (INR n); [exact P0|]. unfold Rdiv at 1. rewrite Rmult_assoc, Rinv_l by lra. nra.
Qed.
Lemma interval_mono n n' : (n < n')%nat -> interval span drn n' <> drn -> interval span drn n' < interval span drn n.
Proof.
  intros H N. apply lt_INR in H. destruct (Rlt_dec (INR n') (span / drn)) as [G|G]; [exfalso; apply N; now apply interval_coarse|].
  destruct (interval_fine n') as (E & B1 & P1); [lra|]. destruct (Rlt_dec (INR n) (span / drn)) as [K|K]; [rewrite (interval_coarse n K); lra|].
  destruct (interval_fine n) as (E2 & B2 & P2); [lra|]. rewrite E, E2. apply Rmult_lt_compat_l; [lra|]. apply Rinv_lt_contravar; [apply Rmult_lt_0_compat; lra|lra].
Qed.

(** If the baseline alone can be fitted at the Nyquist rate, the loop ends after at most
    (number of free parameters)+1 rounds, every round samples more coarsely than the one
    before and none beyond the Nyquist interval; at the end the data are at the Nyquist
    interval, or the interval is 0.9999*span/(number of free parameters) where that number
    is the one of the model returned. *)
Theorem C106_terminates :
  forall (c : cluster) (fuel : nat), c_base c = bl -> INR base_free < span / drn -> (free c < fuel)%nat ->
    exists out, loop fuel c [] = Some out /\
      forall c' used, out = Ok (c', used) -> exists dr rest, used = dr :: rest /\
        0 < dr <= drn /\ StronglySorted (fun a b => a > b) used /\ (length used <= S (free c))%nat /\
        (dr = drn \/ (span / drn <= INR (free c') /\ dr = 9999 / 10000 * span / INR (free c'))) /\
        (* the peaks are among the given ones, unless all of those were removed (then the last
           round may have estimated a new one) *)
        (exists k1, kept w lab (engine_no_nan w) (c_model c) k1 /\ (k1 = c_model c' \/ k1 = [])).
Proof.
  intros c fuel CB NB LF.
  assert (G : forall fuel (c : cluster) used, c_base c = bl -> (free c < fuel)%nat -> StronglySorted (fun a b => a > b) (interval span drn (free c) :: used) ->
    exists out, loop fuel c used = Some out /\
      forall c' used', out = Ok (c', used') -> exists dr rest, used' = dr :: rest /\
        0 < dr <= drn /\ StronglySorted (fun a b => a > b) used' /\ (length used' <= S (free c) + length used)%nat /\
        (dr = drn \/ (span / drn <= INR (free c') /\ dr = 9999 / 10000 * span / INR (free c'))) /\
        (exists k1, kept w lab (engine_no_nan w) (c_model c) k1 /\ (k1 = c_model c' \/ k1 = []))).
  { clear c fuel CB LF. induction fuel as [|fuel IH]; intros c used CB LF SS; [lia|]. cbn [nyquist_loop].
    destruct (round_spec (interval span drn (free c)) c) as (o & -> & RS). destruct o as [c'|x]; [|eexists; split; [reflexivity|discriminate]].
    destruct (RS c' eq_refl) as [CB' KP].
    assert (IB : 0 < interval span drn (free c) <= drn).
    { destruct (Rlt_dec (INR (free c)) (span / drn)) as [K|K]; [rewrite (interval_coarse _ K); lra|]. destruct (interval_fine (free c)) as (_ & A & _); lra. }
    assert (KE : exists k1, kept w lab (engine_no_nan w) (c_model c) k1 /\ (k1 = c_model c' \/ k1 = [])).
    { destruct (c_model c) as [|p0 m0] eqn:M; [exists []; split; [apply kept_refl|now right]|]. exists (c_model c'). split; [apply KP; discriminate|now left]. }
    destruct (Req_EM_T (interval span drn (free c)) drn) as [ED|ED].
    - eexists. split; [reflexivity|]. intros c'' used' E. injection E as <- <-. eexists _, used. split; [reflexivity|]. split; [exact IB|]. split; [exact SS|].
      split; [cbn [length]; lia|]. split; [now left|]. exact KE.
    - assert (FN : span / drn <= INR (free c)) by (apply Rnot_lt_le; intros K; apply ED; now apply interval_coarse).
      assert (NE : c_model c <> []).
      { intros M. rewrite (free_eq c CB), M in FN. cbn [model_npars map list_sum_nat fold_right Nat.add] in FN. unfold model_npars in FN. cbn [map list_sum_nat fold_right Nat.add] in FN. lra. }
      destruct (Nat.eqb_spec (free c') (free c)) as [EF|EF].
      + eexists. split; [reflexivity|]. intros c'' used' E. injection E as <- <-. eexists _, used. split; [reflexivity|]. split; [exact IB|]. split; [exact SS|].
        split; [cbn [length]; lia|]. split; [|exact KE]. right. rewrite EF. destruct (interval_fine _ FN) as (A & _). auto.
      + pose proof (kept_free _ _ _ (KP NE)) as KF. assert (LT : (free c' < free c)%nat) by (pose proof (free_eq c CB); pose proof (free_eq c' CB'); lia).
        destruct (IH c' (interval span drn (free c) :: used) CB') as (out & EO & H); [lia| |].
        { constructor; [exact SS|]. pose proof (interval_mono _ _ LT ED) as MO. inversion SS as [|? ? S1 F1]; subst. constructor; [lra|]. eapply Forall_impl; [|exact F1]. cbn beta. intros; lra. }
        exists out. split; [exact EO|]. intros c'' used' E. destruct (H c'' used' E) as (dr & rest & A1 & A2 & A3 & A4 & A5 & k1 & A6 & A7). exists dr, rest.
        split; [exact A1|]. split; [exact A2|]. split; [exact A3|]. split; [cbn [length] in A4; lia|]. split; [exact A5|].
        exists k1. split; [eapply kept_trans; [apply KP; exact NE|exact A6]|exact A7]. }
  destruct (G fuel c [] CB LF) as (out & EO & H). { repeat constructor. }
  exists out. split; [exact EO|]. intros c' used E. destruct (H c' used E) as (dr & rest & A1 & A2 & A3 & A4 & A5 & A6). exists dr, rest.
  split; [exact A1|]. split; [exact A2|]. split; [exact A3|]. split; [cbn [length] in A4; lia|]. split; [exact A5|]. exact A6.
Qed.
End Props.

(** ** When the baseline alone has too many free parameters the loop need not end *)
(** One free baseline parameter, one Nyquist interval.  Without peaks the data are sampled
    at 0.9999, where the estimated peak is worth keeping; with it they are sampled four
    times finer, where it is pruned again. *)
Definition cr := mkArr 0 [0; 1; 2; 3; 4; 5]%Z.
Definition coarse : array * array * array := (cr, mkArr 1 [1; 1; 9; 1; 1; 1]%Z, mkArr 2 [3; 3; 3; 3; 3; 3]%Z).
Definition fine : array * array * array := (cr, mkArr 1 [4; 0; 0; 0; 0; 0]%Z, mkArr 2 [3; 3; 3; 3; 3; 3]%Z).
Definition xresampled (dr : R) : result (array * array * array) := Ok (if Rltb (1/2) dr then coarse else fine).
Definition nworld := yworld (fun _ => false) idle.
Definition nround (a : array * array * array) : cluster xpeak Z -> option (result (cluster xpeak Z)) :=
  Nyquist.round nworld yqk zargmax (fun _ => Ok a) (Some 0%Z) 0 [7%nat] 0.
Definition n0 : cluster xpeak Z := mkC [] (Some 0%Z) cr (mkArr 1 [1; 1; 9; 1; 1; 1]%Z) (mkArr 2 [3; 3; 3; 3; 3; 3]%Z) 0 6 false 0 0 [7%nat].

Lemma round_model dr a c c' : xresampled dr = Ok a -> c_model c = c_model c' -> Nyquist.round nworld yqk zargmax xresampled (Some 0%Z) 0 [7%nat] dr c = nround a c'.
Proof. intros E H. unfold nround, Nyquist.round. rewrite E. destruct a as [[r2 y2] e2]. rewrite H. reflexivity. Qed.
Definition after (a : array * array * array) (c : cluster xpeak Z) : cluster xpeak Z := match nround a c with Some (Ok c') => c' | _ => c end.
Definition n1 := after coarse n0.
Definition n2 := after fine (set_model n0 [xp 2 9 true]).
Lemma n1_ok : nround coarse n0 = Some (Ok n1). Proof. vm_compute. reflexivity. Qed.
Lemma n2_ok : nround fine (set_model n0 [xp 2 9 true]) = Some (Ok n2). Proof. vm_compute. reflexivity. Qed.
Lemma n1_is : c_model n1 = [xp 2 9 true] /\ c_base n1 = Some 0%Z /\ free nworld n1 = 4%nat. Proof. vm_compute. auto. Qed.
Lemma n2_is : c_model n2 = [] /\ c_base n2 = Some 0%Z /\ free nworld n2 = 1%nat. Proof. vm_compute. auto. Qed.

Lemma cycle : forall fuel c used, c_base c = Some 0%Z -> c_model c = [] \/ c_model c = [xp 2 9 true] ->
  nyquist_loop nworld yqk zargmax xresampled (Some 0%Z) 0 [7%nat] 1 1 fuel c used = None.
Proof.
  induction fuel as [|fuel IH]; intros c used CB CM; [reflexivity|]. cbn [nyquist_loop].
  assert (FR : free nworld c = match c_model c with [] => 1%nat | _ => 4%nat end).
  { unfold free, npars. rewrite CB. destruct CM as [-> | ->]; reflexivity. }
  assert (NE : forall n, 1 <= INR n -> interval 1 1 n = 9999 / 10000 * 1 / INR n).
  { intros n H. unfold interval. destruct (Rltb (INR n) (1 / 1)) eqn:E; [apply Rltb_spec in E; lra|reflexivity]. }
  destruct CM as [M|M]; rewrite M in FR; rewrite FR.
  - rewrite NE by (cbn [INR]; lra). rewrite (round_model _ coarse c n0); [|unfold xresampled; f_equal; replace (Rltb (1/2) (9999 / 10000 * 1 / INR 1)) with true; [reflexivity|symmetry; apply Rltb_spec; cbn [INR]; lra]|exact M].
    rewrite n1_ok. destruct (Req_EM_T _ 1) as [E|_]; [cbn [INR] in E; lra|]. destruct n1_is as (A & C & D). rewrite D. cbn [Nat.eqb]. apply IH; [exact C|now right].
  - rewrite NE by (cbn [INR]; lra). rewrite (round_model _ fine c (set_model n0 [xp 2 9 true])); [|unfold xresampled; f_equal; destruct (Rltb (1/2) (9999 / 10000 * 1 / INR 4)) eqn:E; [apply Rltb_spec in E; cbn [INR] in E; lra|reflexivity]|exact M].
    rewrite n2_ok. destruct (Req_EM_T _ 1) as [E|_]; [cbn [INR] in E; lra|]. destruct n2_is as (A & C & D). rewrite D. cbn [Nat.eqb]. apply IH; [exact C|now left].
Qed.

Theorem C54_estimation_cycle_refuted :
  let w := nworld in
  argsort_ok (w_argsort w) /\ engine_shape w snd /\ engine_tame w /\ engine_no_nan w /\ argmax_ok (w_qlt w) zargmax /\
  c_base n0 = Some 0%Z /\
  forall fuel, nyquist_loop w yqk zargmax xresampled (Some 0%Z) 0 [7%nat] 1 1 fuel n0 [] = None.
Proof.
  intros w. split; [exact isort_ok|]. split; [intros m b c n ps b' out E; cbn in E; unfold idle in E; injection E as <- _ _; induction m; constructor; auto|].
  split; [intros m b c n ps b' e _ E; discriminate|].
  split; [intros m b c n ps b' E p Hp; reflexivity|]. split; [exact zargmax_ok|]. split; [reflexivity|].
  intros fuel. apply cycle; [reflexivity|now left].
Qed.

(** ** The hypotheses of the termination theorem are met: 3 Nyquist intervals, 1 baseline
    parameter, one peak with 3 parameters; the first round is at 0.9999*3/4. *)
Example C54_hypotheses_met :
  let w := nworld in let c := set_model n0 [xp 2 9 true] in
  argsort_ok (w_argsort w) /\ engine_shape w snd /\ (forall p q : xpeak, snd p = snd q -> w_p_npars w false p = w_p_npars w false q) /\
  c_base c = Some 0%Z /\ INR (@base_free _ _ _ w (Some 0%Z)) < 3 / 1 /\ free w c = 4%nat /\
  exists c' used, nyquist_loop w yqk zargmax xresampled (Some 0%Z) 0 [7%nat] 3 1 5 c [] = Some (Ok (c', used)).
Proof.
  intros w c. assert (A1 : argsort_ok (w_argsort w)) by exact isort_ok.
  assert (A2 : engine_shape w snd) by (intros m b c' n ps b' out E; cbn in E; unfold idle in E; injection E as <- _ _; induction m; constructor; auto).
  assert (A4 : INR (@base_free _ _ _ w (Some 0%Z)) < 3 / 1) by (cbn; lra).
  split; [exact A1|]. split; [exact A2|]. split; [reflexivity|]. split; [reflexivity|]. split; [exact A4|]. split; [reflexivity|].
  cbn [nyquist_loop]. change (free w c) with 4%nat.
  assert (I : interval 3 1 4 = 9999 / 10000 * 3 / INR 4) by (unfold interval; destruct (Rltb (INR 4) (3 / 1)) eqn:E; [apply Rltb_spec in E; cbn [INR] in E; lra|reflexivity]).
  rewrite I. unfold w. rewrite (round_model _ coarse c c); [|unfold xresampled; f_equal; replace (Rltb (1/2) (9999 / 10000 * 3 / INR 4)) with true; [reflexivity|symmetry; apply Rltb_spec; cbn [INR]; lra]|reflexivity].
  assert (N : nround coarse c = Some (Ok (after coarse c))) by (vm_compute; reflexivity). rewrite N.
  destruct (Req_EM_T _ 1) as [E|_]; [cbn [INR] in E; lra|]. assert (F : free nworld (after coarse c) = 4%nat) by (vm_compute; reflexivity). rewrite F. cbn [Nat.eqb].
  eexists _, _. reflexivity.
Qed.

Print Assumptions C106_terminates.
Print Assumptions C54_estimation_cycle_refuted.

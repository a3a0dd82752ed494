(** Properties C209-C212: the displays of ModelSelection. *)
From Coq Require Import Permutation.
From Verif Require Import Prelude ModelCluster ModelClusterProofs ModelClusterProps ResampleProps CovarianceProofs Stability StabilityProps Animate.
Open Scope nat_scope.

Section Props.
Context {P B Q D X K W : Type}.
Variable w : world P B Q.
Variable resample : @ppe P B X -> D -> result (array * array * array).
Notation stab := (@stab P B D X).
Hypothesis AS : argsort_ok (w_argsort w).

(** The peaks and the baseline of the stored result k *)
Definition peaks_of (s : stab) (k : nat) : option (list P) :=
  match nth_error (s_results s) k with Some r => nth_error (s_models s) (r_model r) | None => None end.
Definition base_of (s : stab) (k : nat) : option (option B) :=
  match nth_error (s_results s) k with Some r => nth_error (s_bases s) (r_base r) | None => None end.
(** different results are different objects, as after run (C65_run) *)
Definition separate (s : stab) : Prop :=
  forall i j r r', nth_error (s_results s) i = Some r -> nth_error (s_results s) j = Some r' -> i <> j -> r_model r <> r_model r'.
(** Whose peaks are on the screen if [b0] was best first and then [bs] one after the other:
    the last one that is not b0. *)
Definition on_screen (b0 : nat) (bs : list nat) : nat := last (filter (fun b => negb (Nat.eqb b b0)) bs) b0.

Lemma on_screen_step b0 bs b : on_screen b0 (bs ++ [b]) = if Nat.eqb b b0 then on_screen b0 bs else b.
Proof.
  unfold on_screen. rewrite filter_app. cbn [filter]. destruct (Nat.eqb b b0); cbn [negb]; [now rewrite app_nil_r|]. now rewrite last_last.
Qed.

Lemma whole_slice {A} (m : list A) : slice_bounds (length m) (Some 0%Z) (Some (Z.of_nat (length m))) = (0, length m).
Proof.
  unfold slice_bounds, clamp.
  repeat match goal with |- context [(?a <? ?b)%Z] => destruct (Z.ltb_spec a b); try lia | |- context [(?a <=? ?b)%Z] => destruct (Z.leb_spec a b); try lia end;
  f_equal; lia.
Qed.
(** Replacing all peaks: the new ones, sorted. *)
Lemma replace_all m new m' : replacepeaks w m new (Some 0%Z) (Some (Z.of_nat (length m))) = (m', Ok tt) -> Permutation m' new.
Proof.
  unfold replacepeaks. rewrite whole_slice. destruct (existsb _ _); [discriminate|]. intros E. injection E as <-.
  rewrite (sort_perm w AS). unfold assign_slice. cbn [firstn app]. rewrite skipn_all, app_nil_r. reflexivity.
Qed.

Section Run.
Variables (dgs : list K) (aicprobs : @table K (list W)) (sortedprobs : @table K (list nat)).
Variable draw : @frame P B K W -> result unit.
Notation frame := (@frame P B K W).
Notation probs_loop := (probs_loop w draw dgs aicprobs sortedprobs).

(** The best model at an uncertainty: the last in the sorted table. *)
Definition most_probable (dg : K) (b : nat) : Prop := exists l, sortedprobs dg = Some (l ++ [b]).
Lemma best_at_spec (t : @table K (list nat)) dg b : best_at t dg = Ok b <-> exists l, t dg = Some (l ++ [b]).
Proof.
  unfold best_at, look_up. destruct (t dg) as [l|]; cbn [bind]; [|split; [discriminate|intros [l E]; discriminate]].
  unfold pyget. cbn [Z.ltb Z.compare]. destruct l as [|a l0] using rev_ind.
  - cbn. split; [discriminate|]. intros [[|? ?] E]; discriminate.
  - rewrite app_length. cbn [length]. destruct (Z.ltb_spec (-1 + Z.of_nat (length l0 + 1)) 0); [lia|].
    destruct (Z.leb_spec (Z.of_nat (length l0 + 1)) (-1 + Z.of_nat (length l0 + 1))); [lia|]. cbn [orb].
    replace (Z.to_nat (-1 + Z.of_nat (length l0 + 1))) with (length l0) by lia. rewrite nth_error_app2, Nat.sub_diag by lia. cbn [nth_error].
    split; [intros E; injection E as ->; now exists l0|]. intros [l1 E]. injection E as E. apply app_inj_tail in E as [_ ->]. reflexivity.
Qed.

(** what holds between two uncertainties *)
Record inv (s0 : stab) (b0 : nat) (who : nat) (s : stab) : Prop := {
  i_results : s_results s = s_results s0;
  i_bases : s_bases s = s_bases s0;
  i_ext : exists x r0, p_ext (s_ppe s) = Some x /\ nth_error (s_results s0) b0 = Some r0 /\ e_model x = r_model r0 /\ e_base x = r_base r0;
  i_cur : exists m m0, peaks_of s b0 = Some m /\ peaks_of s0 who = Some m0 /\ Permutation m m0;
  i_rest : forall k, k <> b0 -> peaks_of s k = peaks_of s0 k }.

Lemma pyget_nat {A} (l : list A) (k : nat) a : pyget l (Z.of_nat k) = Ok a -> nth_error l k = Some a.
Proof.
  unfold pyget. destruct (Z.ltb_spec (Z.of_nat k) 0); [lia|]. destruct (Z.ltb_spec (Z.of_nat k) 0); [lia|].
  destruct (Z.leb_spec (Z.of_nat (length l)) (Z.of_nat k)); cbn [orb]; [discriminate|]. rewrite Nat2Z.id. destruct (nth_error l k); [|discriminate]. intros E. now injection E as ->.
Qed.

Lemma replace_shown_ok s0 b0 who s b s1 : separate s0 -> inv s0 b0 who s -> replace_shown w s b = (s1, Ok tt) ->
  inv s0 b0 (if Nat.eqb b b0 then who else b) s1.
Proof.
  intros SEP [I1 I2 (x & r0 & X1 & X2 & X3 & X4) (m & m0 & C1 & C2 & C3) I5] E. unfold replace_shown in E. rewrite X1 in E.
  destruct (pyget (s_results s) (Z.of_nat b)) as [r|] eqn:G; [|discriminate]. apply pyget_nat in G.
  assert (MM : nth_error (s_models s) (e_model x) = Some m).
  { unfold peaks_of in C1. rewrite I1, X2 in C1. now rewrite X3. }
  rewrite MM in E. destruct (nth_error (s_models s) (r_model r)) as [new|] eqn:N; [|discriminate].
  destruct (replacepeaks _ _ _ _ _) as [m' o] eqn:RP. destruct o as [[]|]; [|discriminate]. assert (s1 = mkStab (upd (s_models s) (e_model x) m') (s_bases s) (s_results s) (s_ppe s) (s_current s)) as -> by congruence.
  apply replace_all in RP. assert (LT : e_model x < length (s_models s)) by (apply nth_error_Some; congruence).
  constructor; cbn [s_results s_bases s_ppe s_models]; auto.
  - exists x, r0. auto.
  - unfold peaks_of. cbn [s_results s_models]. rewrite I1, X2, <- X3, upd_get by exact LT.
    destruct (Nat.eqb_spec b b0) as [->|NE].
    + rewrite I1, X2 in G. injection G as <-. rewrite <- X3, MM in N. injection N as <-. exists m', m0. split; [reflexivity|]. split; [exact C2|]. now rewrite RP.
    + exists m', new. split; [reflexivity|]. split; [|exact RP]. specialize (I5 b NE). unfold peaks_of in I5. rewrite G, N in I5. now symmetry.
  - intros k NE. unfold peaks_of. cbn [s_results s_models]. rewrite I1. destruct (nth_error (s_results s0) k) as [rk|] eqn:RK; [|reflexivity].
    rewrite upd_other; [|rewrite X3; exact (SEP b0 k r0 rk X2 RK (not_eq_sym NE))]. specialize (I5 k NE). unfold peaks_of in I5. now rewrite I1, RK in I5.
Qed.

(** One frame per uncertainty: its probabilities, the dot at the best model, and the peaks of
    the result [who] on the baseline of the first. *)
Definition frame_ok (s0 : stab) (b0 who b : nat) (dg : K) (f : frame) : Prop :=
  f_dg f = dg /\ aicprobs dg = Some (f_line f) /\
  nth_error dgs b = Some (fst (f_dot f)) /\ nth_error (f_line f) b = Some (snd (f_dot f)) /\
  (exists m0, peaks_of s0 who = Some m0 /\ Permutation (f_peaks f) m0) /\
  base_of s0 b0 = Some (f_base f).

Lemma shown_ok s0 b0 who s sh : inv s0 b0 who s -> shown s = Ok sh ->
  (exists m0, peaks_of s0 who = Some m0 /\ Permutation (fst sh) m0) /\ base_of s0 b0 = Some (snd sh) /\ peaks_of s b0 = Some (fst sh).
Proof.
  intros [I1 I2 (x & r0 & X1 & X2 & X3 & X4) (m & m0 & C1 & C2 & C3) I5] E. unfold shown in E. rewrite X1 in E. unfold ext_cluster in E.
  unfold peaks_of in C1. rewrite I1, X2 in C1. rewrite X3, C1 in E. destruct (nth_error (s_bases s) (e_base x)) as [b|] eqn:BB; [|discriminate].
  cbn [c_model c_base set_base set_model] in E. injection E as <-. cbn [fst snd]. split; [exists m0; auto|]. split.
  - unfold base_of. now rewrite X2, <- X4, <- I2.
  - unfold peaks_of. now rewrite I1, X2.
Qed.

Lemma loop_spec s0 b0 : separate s0 -> forall ds s best seen s' fs,
  inv s0 b0 (on_screen b0 seen) s -> (best = b0 \/ on_screen b0 seen = best) ->
  probs_loop s best ds = (s', fs, Ok tt) ->
  exists bs, Forall2 most_probable ds bs /\ inv s0 b0 (on_screen b0 (seen ++ bs)) s' /\
    (forall i dg b, nth_error ds i = Some dg -> nth_error bs i = Some b ->
       exists f, nth_error fs i = Some f /\ frame_ok s0 b0 (on_screen b0 (seen ++ firstn (S i) bs)) b dg f) /\
    length fs = length ds /\ (Forall (eq best) bs -> s' = s).
Proof.
  intros SEP. induction ds as [|dg ds IH]; intros s best seen s' fs I BW E; cbn [Animate.probs_loop] in E.
  - injection E as <- <-. exists []. rewrite app_nil_r. split; [constructor|]. split; [exact I|]. split; [intros [|i] dg b H; discriminate|]. split; [reflexivity|]. reflexivity.
  - destruct (look_up aicprobs dg) as [line|] eqn:L1; [|discriminate]. destruct (best_at sortedprobs dg) as [b|] eqn:L2; [|discriminate].
    destruct (if b =? best then (s, Ok tt) else replace_shown w s b) as [s1 o] eqn:ST.
    destruct o as [[]|]; cbn [bind] in E; [|discriminate]. destruct (shown s1) as [sh|] eqn:SH; cbn [bind] in E; [|discriminate].
    destruct (pyget dgs (Z.of_nat b)) as [x|] eqn:G1; cbn [bind] in E; [|discriminate]. destruct (pyget line (Z.of_nat b)) as [y|] eqn:G2; cbn [bind] in E; [|discriminate].
    destruct (draw _); [|discriminate]. destruct (probs_loop s1 b ds) as [[s2 fs2] o2] eqn:LL. injection E as <- <- ->.
    assert (I1 : inv s0 b0 (on_screen b0 (seen ++ [b])) s1).
    { rewrite on_screen_step. destruct (Nat.eqb_spec b best) as [->|NE].
      - injection ST as <-. destruct (Nat.eqb_spec best b0) as [->|N2]; [exact I|]. destruct BW as [->|BW]; [contradiction|]. now rewrite <- BW.
      - exact (replace_shown_ok s0 b0 _ s b s1 SEP I ST). }
    destruct (IH s1 b (seen ++ [b]) s2 fs2 I1) as (bs & B1 & B2 & B3 & B4 & B5); [|exact LL|].
    { rewrite on_screen_step. destruct (Nat.eqb_spec b b0); auto. }
    exists (b :: bs). split; [constructor; [now apply best_at_spec|exact B1]|]. rewrite <- app_assoc in B2. split; [exact B2|]. split; [|split].
    + intros [|i] dg' b' N1 N2; cbn [nth_error] in N1, N2.
      * injection N1 as <-. injection N2 as <-. eexists. split; [reflexivity|]. cbn [firstn]. unfold frame_ok. cbn [f_dg f_line f_dot f_peaks f_base fst snd].
        destruct (shown_ok _ _ _ _ _ I1 SH) as (S1 & S2 & _). unfold look_up in L1. destruct (aicprobs dg); [|discriminate]. injection L1 as ->.
        apply pyget_nat in G1, G2. repeat split; auto.
      * destruct (B3 i dg' b' N1 N2) as (f & F1 & F2). exists f. split; [exact F1|]. rewrite <- app_assoc in F2. exact F2.
    + cbn [length]. now f_equal.
    + intros F. inversion F as [|? ? <- F']; subst. rewrite Nat.eqb_refl in ST. injection ST as <-. now apply B5.
Qed.

Lemma setcurrent_inv s b0 s1 : separate s -> setcurrent w resample s (Some (Z.of_nat b0)) = (s1, Ok tt) ->
  inv s b0 b0 s1 /\ s_models s1 = s_models s.
Proof.
  intros SEP E. unfold setcurrent in E. cbn [set_current s_results s_ppe] in E.
  destruct (pyget (s_results s) (Z.of_nat b0)) as [r|] eqn:G; [|discriminate]. apply pyget_nat in G.
  destruct (resample _ _) as [((rr & yy) & dy)|]; [|discriminate]. destruct (nth_error (s_models s) (r_model r)) as [m|] eqn:M; [|discriminate].
  destruct (nth_error (s_bases s) (r_base r)) as [b|] eqn:BB; [|discriminate]. destruct (make_cluster _ _ _ _ _ _ _ _ _) as [c|]; [|discriminate].
  injection E as <-. split; [|reflexivity]. constructor; try reflexivity.
  - eexists. exists r. split; [reflexivity|]. auto.
  - exists m, m. unfold peaks_of. cbn [s_results s_models set_ppe set_ext set_current]. rewrite G. auto.
Qed.

Lemma Forall2_len {A C} (R : A -> C -> Prop) l l' : Forall2 R l l' -> length l = length l'.
Proof. induction 1; cbn; congruence. Qed.
Lemma firstn_S_nth {A} (l : list A) : forall k a, nth_error l k = Some a -> firstn (S k) l = firstn k l ++ [a].
Proof. induction l as [|b l IH]; intros [|k] a H; cbn in *; try discriminate; [now injection H as ->|]. now rewrite <- (IH k a H). Qed.

Lemma animate_spec s s' fs : separate s -> animate_probs w resample draw dgs aicprobs sortedprobs s = (s', fs, Ok tt) ->
  exists b0 bs, Forall2 most_probable dgs (b0 :: bs) /\ length fs = length dgs /\
    (forall i dg b, nth_error dgs i = Some dg -> nth_error (b0 :: bs) i = Some b ->
       exists f, nth_error fs i = Some f /\ frame_ok s b0 (on_screen b0 (firstn i bs)) b dg f) /\
    inv s b0 (on_screen b0 bs) s' /\ (Forall (eq b0) bs -> s_models s' = s_models s).
Proof.
  intros SEP E. unfold animate_probs in E.
  destruct dgs as [|dg0 ds] eqn:DG; [discriminate|]. rewrite <- DG in *. assert (G0 : pyget dgs 0 = Ok dg0) by (rewrite DG; reflexivity). rewrite G0 in E. cbn [bind] in E.
  destruct (best_at sortedprobs dg0) as [b0|] eqn:B0; cbn [bind] in E; [|discriminate]. destruct (look_up aicprobs dg0) as [line|] eqn:L1; cbn [bind] in E; [|discriminate].
  destruct (negb _); [discriminate|]. destruct (pyget dgs (Z.of_nat b0)) as [x|] eqn:G1; cbn [bind] in E; [|discriminate].
  destruct (pyget line (Z.of_nat b0)) as [y|] eqn:G2; cbn [bind] in E; [|discriminate].
  destruct (setcurrent w resample s (Some (Z.of_nat b0))) as [s1 [[]|]] eqn:SC; [|discriminate]. destruct (setcurrent_inv s b0 s1 SEP SC) as [I0 MS].
  destruct (shown s1) as [sh|] eqn:SH; [|discriminate]. destruct (draw _); [|discriminate].
  destruct (probs_loop s1 b0 (tl dgs)) as [[s2 fs2] o2] eqn:LL. injection E as <- <- ->.
  replace (tl dgs) with ds in LL by (rewrite DG; reflexivity).
  destruct (loop_spec s b0 SEP ds s1 b0 [] s2 fs2 I0 (or_introl eq_refl) LL) as (bs & B1 & B2 & B3 & B4 & B5).
  exists b0, bs. split; [rewrite DG; constructor; [now apply best_at_spec|exact B1]|]. split; [rewrite DG; cbn [length]; now f_equal|]. split; [|split].
  - intros i dg b N1 N2. rewrite DG in N1. destruct i as [|i]; cbn [nth_error] in N1, N2.
    + injection N1 as <-. injection N2 as <-. eexists. split; [reflexivity|]. unfold frame_ok. cbn [f_dg f_line f_dot f_peaks f_base fst snd].
      destruct (shown_ok _ _ _ _ _ I0 SH) as (S1 & S2 & _). unfold look_up in L1. destruct (aicprobs dg0); [|discriminate]. injection L1 as ->. apply pyget_nat in G1, G2.
      repeat split; auto.
    + exact (B3 i dg b N1 N2).
  - exact B2.
  - intros F. rewrite (B5 F). exact MS.
Qed.

(** A complete animation shows one frame per uncertainty, with its probabilities and the dot at
    the best model.  The peaks are those of the best model, unless that is the one that was
    best at the first uncertainty (b0); the baseline is always that of b0. *)
Theorem C209_frames :
  forall s s' fs, separate s -> animate_probs w resample draw dgs aicprobs sortedprobs s = (s', fs, Ok tt) ->
    exists b0 bs, Forall2 most_probable dgs (b0 :: bs) /\ length fs = length dgs /\
      forall i dg b, nth_error dgs i = Some dg -> nth_error (b0 :: bs) i = Some b ->
        exists f, nth_error fs i = Some f /\ f_dg f = dg /\ aicprobs dg = Some (f_line f) /\
          nth_error dgs b = Some (fst (f_dot f)) /\ nth_error (f_line f) b = Some (snd (f_dot f)) /\
          (b <> b0 \/ Forall (eq b0) (firstn i bs) -> exists m0, peaks_of s b = Some m0 /\ Permutation (f_peaks f) m0) /\
          base_of s b0 = Some (f_base f).
Proof.
  intros s s' fs SEP E. destruct (animate_spec s s' fs SEP E) as (b0 & bs & B1 & B2 & B3 & _). exists b0, bs. split; [exact B1|]. split; [exact B2|].
  intros i dg b N1 N2. destruct (B3 i dg b N1 N2) as (f & F1 & F2 & F3 & F4 & F5 & F6 & F7). exists f. repeat (split; [assumption|]). split; [|exact F7].
  assert (SAME : forall l, Forall (eq b0) l -> on_screen b0 l = b0).
  { clear. intros l F. unfold on_screen. assert (filter (fun b => negb (b =? b0)) l = []) as ->; [|reflexivity]. induction F as [|a l <- F IH]; [reflexivity|]. cbn [filter]. now rewrite Nat.eqb_refl. }
  destruct i as [|i]; cbn [nth_error] in N2.
  - injection N2 as <-. intros _. exact F6.
  - intros H. rewrite (firstn_S_nth bs i b N2), on_screen_step in F6. destruct (Nat.eqb_spec b b0) as [->|NE]; [|exact F6].
    destruct H as [H|H]; [contradiction|]. rewrite (firstn_S_nth bs i b0 N2) in H. apply Forall_app in H as [H _]. now rewrite (SAME _ H) in F6.
Qed.

(** Violated: the result that was best first is overwritten.  Afterwards it has the peaks of
    the last result that was best and is not b0; the other results are as they were, and all
    are if b0 is best throughout. *)
Theorem C209_results_overwritten_refuted :
  forall s s' fs, separate s -> animate_probs w resample draw dgs aicprobs sortedprobs s = (s', fs, Ok tt) ->
    exists b0 bs, Forall2 most_probable dgs (b0 :: bs) /\
      (forall k, k <> b0 -> peaks_of s' k = peaks_of s k) /\ (forall k, base_of s' k = base_of s k) /\
      (exists m m0, peaks_of s' b0 = Some m /\ peaks_of s (on_screen b0 bs) = Some m0 /\ Permutation m m0) /\
      (Forall (eq b0) bs -> forall k, peaks_of s' k = peaks_of s k).
Proof.
  intros s s' fs SEP E. destruct (animate_spec s s' fs SEP E) as (b0 & bs & B1 & _ & _ & [I1 I2 I3 I4 I5] & B5). exists b0, bs. split; [exact B1|]. split; [exact I5|]. split; [|split; [exact I4|]].
  - intros k. unfold base_of. now rewrite I1, I2.
  - intros F k. unfold peaks_of. now rewrite I1, (B5 F).
Qed.

(** Violated: a result that is best first and again later, but not in between, is shown with
    the peaks of the one in between. *)
Theorem C209_wrong_peaks_refuted :
  forall s s' fs a l x y b0 b, separate s -> animate_probs w resample draw dgs aicprobs sortedprobs s = (s', fs, Ok tt) ->
    dgs = a :: l ++ [x; y] -> most_probable a b0 -> most_probable x b -> most_probable y b0 -> b <> b0 ->
    exists f m, nth_error fs (length fs - 1) = Some f /\ f_dg f = y /\ peaks_of s b = Some m /\ Permutation (f_peaks f) m.
Proof.
  intros s s' fs a l x y b0 b SEP E DG MA MX MY NB. destruct (animate_spec s s' fs SEP E) as (b0' & bs & B1 & B2 & B3 & _).
  assert (UNI : forall k i j, most_probable k i -> most_probable k j -> i = j).
  { intros k i j (l1 & E1) (l2 & E2). rewrite E1 in E2. injection E2 as E2. now apply app_inj_tail in E2. }
  assert (b0' = b0) as -> by (rewrite DG in B1; apply (UNI a); [now inversion B1|exact MA]).
  assert (F2 : Forall2 most_probable (l ++ [x; y]) bs) by (rewrite DG in B1; now inversion B1).
  apply Forall2_app_inv_l in F2 as (bl & bt & _ & F2 & EB). inversion F2 as [|? bx ? bt1 X1 X2 E1 E2]. subst bt. inversion X2 as [|? by_ ? bt2 Y1 Y2 E3 E4]. subst bt1. inversion Y2. subst bt2.
  rewrite (UNI x bx b X1 MX), (UNI y by_ b0 Y1 MY) in EB. clear F2 X2 Y2. subst bs.
  assert (LB : length bl = length l).
  { apply Forall2_len in B1. rewrite DG in B1. cbn [length] in B1. rewrite !app_length in B1. cbn [length] in B1. lia. }
  destruct (B3 (S (length l + 1)) y b0) as (f & F1 & F3 & _ & _ & _ & F6 & _).
  - rewrite DG. cbn [nth_error]. rewrite nth_error_app2 by lia. now replace (length l + 1 - length l) with 1 by lia.
  - cbn [nth_error]. rewrite nth_error_app2 by lia. now replace (length l + 1 - length bl) with 1 by lia.
  - exists f. assert (LF : length fs - 1 = S (length l + 1)) by (rewrite B2, DG; cbn [length]; rewrite app_length; cbn [length]; lia). rewrite LF.
    replace (firstn (S (length l + 1)) (bl ++ [b; b0])) with ((bl ++ [b]) ++ [b0]) in F6.
    + rewrite !on_screen_step, Nat.eqb_refl in F6. destruct (Nat.eqb_spec b b0); [contradiction|]. destruct F6 as (m0 & P1 & P2). exists m0. auto.
    + rewrite firstn_all2; [now rewrite <- app_assoc|]. rewrite app_length. cbn [length]. lia.
Qed.
End Run.

(** ** C210, C211: the classes *)
Section Classes.
Variables (dgs : list K) (classes : list (list nat)) (classprobs : @table K (list W))
  (sortedclassprobs : @table K (list nat)) (sortedclasses : @table K (list (list nat))).
Notation cframe := (@cframe P B K W).
Variable cdraw : cframe -> result unit.
Notation animate_classprobs := (animate_classprobs w resample cdraw dgs classes classprobs sortedclassprobs sortedclasses).
Definition best_class (dg : K) (c : nat) : Prop := exists l, sortedclassprobs dg = Some (l ++ [c]).
Definition best_member (dg : K) (c b : nat) : Prop := exists cs l, sortedclasses dg = Some cs /\ nth_error cs c = Some (l ++ [b]).

(** However the animation ends, the stored results are as they were. *)
Theorem C210_results_kept :
  forall s s' fs o, animate_classprobs s = (s', fs, o) ->
    s_results s' = s_results s /\ s_models s' = s_models s /\ s_bases s' = s_bases s.
Proof.
  assert (SC : forall s i, let s' := fst (setcurrent w resample s i) in s_results s' = s_results s /\ s_models s' = s_models s /\ s_bases s' = s_bases s).
  { intros s [i|]; [|repeat split]. unfold setcurrent. cbn [set_current s_results s_ppe].
    destruct (pyget _ i) as [r|]; [|repeat split]. destruct (resample _ _) as [((rr & yy) & dy)|]; [|repeat split].
    destruct (nth_error (s_models s) _); [|repeat split]. destruct (nth_error (s_bases s) _); [|repeat split]. destruct (make_cluster _ _ _ _ _ _ _ _ _); repeat split. }
  intros s s' fs o E. unfold Animate.animate_classprobs in E.
  destruct (bind (pyget dgs 0) _) as [[[[[dg0 c] b] line] dot]|]; [|injection E as <- _ _; repeat split].
  specialize (SC s (Some (Z.of_nat b))). cbv zeta in SC. destruct (setcurrent w resample s (Some (Z.of_nat b))) as [s1 [u|]]; cbn [fst] in SC; [|injection E as <- _ _; exact SC].
  destruct (p_ext (s_ppe s1)) as [x|]; [|injection E as <- _ _; exact SC]. destruct (ext_cluster s1 x); [|injection E as <- _ _; exact SC].
  destruct (copy_cluster _ _); [|injection E as <- _ _; exact SC]. destruct (cdraw _); [|injection E as <- _ _; exact SC].
  destruct (class_loop _ _ _ _ _ _ _ _ _ _) as [fs2 o2]. injection E as <- _ _. exact SC.
Qed.

(** What is shown: when the best class changes, the best member it has at that uncertainty;
    as long as it stays, that same model. *)
Inductive follows : nat -> nat -> list K -> list (nat * nat) -> Prop :=
| f_end c b : follows c b [] []
| f_stay c b dg ds l : best_class dg c -> follows c b ds l -> follows c b (dg :: ds) ((c, b) :: l)
| f_change c b dg ds c' b' l : best_class dg c' -> c' <> c -> best_member dg c' b' -> follows c' b' ds l -> follows c b (dg :: ds) ((c', b') :: l).

Lemma class_best_spec dg c b : class_best sortedclasses dg c = Ok b <-> best_member dg c b.
Proof.
  unfold class_best, look_up, best_member. destruct (sortedclasses dg) as [cs|]; cbn [bind]; [|split; [discriminate|intros (? & ? & ? & _); discriminate]].
  destruct (nth_error cs c) as [l|] eqn:N.
  - assert (pyget cs (Z.of_nat c) = Ok l) as -> by (now apply pyget_ok). cbn [bind].
    pose proof (best_at_spec (fun _ : K => Some l) dg b) as H. unfold best_at, look_up in H. cbn [bind] in H. rewrite H. split.
    + intros (l0 & E). injection E as ->. exists cs, l0. auto.
    + intros (cs' & l0 & E1 & E2). injection E1 as <-. rewrite N in E2. injection E2 as ->. now exists l0.
  - assert (exists e, pyget cs (Z.of_nat c) = Err e) as (e & ->).
    { destruct (pyget cs (Z.of_nat c)) eqn:G; [apply pyget_nat in G; congruence|eauto]. }
    cbn [bind]. split; [discriminate|]. intros (cs' & l0 & E1 & E2). injection E1 as <-. congruence.
Qed.

Definition cframe_ok (s : stab) (bl : option B) (dg : K) (cb : nat * nat) (f : cframe) : Prop :=
  g_dg f = dg /\ classprobs dg = Some (g_line f) /\ fst (g_dot f) = AtClass (fst cb) /\ nth_error (g_line f) (fst cb) = Some (snd (g_dot f)) /\
  (exists m0, peaks_of s (snd cb) = Some m0 /\ Permutation (g_peaks f) m0) /\ g_base f = bl.

Lemma class_loop_spec s bl : forall ds temp c b fs,
  (exists m0, peaks_of s b = Some m0 /\ Permutation temp m0) ->
  class_loop w cdraw classprobs sortedclassprobs sortedclasses s temp bl c ds = (fs, Ok tt) ->
  exists l, follows c b ds l /\ length fs = length ds /\
    forall i dg cb, nth_error ds i = Some dg -> nth_error l i = Some cb -> exists f, nth_error fs i = Some f /\ cframe_ok s bl dg cb f.
Proof.
  induction ds as [|dg ds IH]; intros temp c b fs T E; cbn [class_loop] in E.
  - injection E as <-. exists []. split; [constructor|]. split; [reflexivity|]. intros [|i] ? ? H; discriminate.
  - destruct (look_up classprobs dg) as [line|] eqn:L1; cbn [bind] in E; [|discriminate]. destruct (best_at sortedclassprobs dg) as [c'|] eqn:L2; cbn [bind] in E; [|discriminate].
    apply best_at_spec in L2.
    assert (STEP : exists temp' b', (c' = c /\ b' = b \/ c' <> c /\ best_member dg c' b') /\ (exists m0, peaks_of s b' = Some m0 /\ Permutation temp' m0) /\
       match (do y <- pyget line (Z.of_nat c'); Ok (line, c', temp', y)) with
       | Ok (line0, c0, temp'0, y) =>
           match cdraw (mkCFrame dg line0 (AtClass c0, y) temp'0 bl) with
           | Ok _ => let '(fs, o) := class_loop w cdraw classprobs sortedclassprobs sortedclasses s temp'0 bl c0 ds in (mkCFrame dg line0 (AtClass c0, y) temp'0 bl :: fs, o)
           | Err e => ([], Err e)
           end
       | Err e => ([], Err e)
       end = (fs, Ok tt)).
    { destruct (Nat.eqb_spec c' c) as [->|NE]; cbn [bind] in E.
      - exists temp, b. split; [left; auto|]. split; [exact T|exact E].
      - destruct (class_best sortedclasses dg c') as [b'|] eqn:CB; cbn [bind] in E; [|discriminate]. apply class_best_spec in CB.
        destruct (pyget (s_results s) (Z.of_nat b')) as [r|] eqn:G; cbn [bind] in E; [|discriminate]. apply pyget_nat in G.
        destruct (nth_error (s_models s) (r_model r)) as [new|] eqn:N; [|discriminate].
        destruct (replacepeaks _ _ _ _ _) as [m o] eqn:RP. destruct o as [[]|]; cbn [bind] in E; [|discriminate]. apply replace_all in RP.
        exists m, b'. split; [right; auto|]. split; [|exact E]. exists new. split; [|exact RP]. unfold peaks_of. now rewrite G. }
    clear E. destruct STEP as (temp' & b' & CASE & T' & E). destruct (pyget line (Z.of_nat c')) as [y|] eqn:GY; cbn [bind] in E; [|discriminate]. apply pyget_nat in GY.
    destruct (cdraw _); [|discriminate]. destruct (class_loop _ _ _ _ _ _ _ _ _ _) as [fs2 o2] eqn:LL. injection E as <- ->.
    destruct (IH temp' c' b' fs2 T' LL) as (l & F1 & F2 & F3). exists ((c', b') :: l). split; [|split].
    + destruct CASE as [[-> ->]|[NE BM]]; [now apply f_stay|now apply f_change].
    + cbn [length]. now f_equal.
    + intros [|i] dg' cb N1 N2; cbn [nth_error] in N1, N2.
      * injection N1 as <-. injection N2 as <-. eexists. split; [reflexivity|]. unfold cframe_ok. cbn [g_dg g_line g_dot g_peaks g_base fst snd].
        unfold look_up in L1. destruct (classprobs dg); [|discriminate]. injection L1 as ->. repeat split; auto.
      * exact (F3 i dg' cb N1 N2).
Qed.

Lemma copy_same (c t : cluster P B) : copy_cluster w c = Ok t -> c_model t = c_model c /\ c_base t = c_base c.
Proof. unfold copy_cluster, make_cluster, change_slice_from. destruct (all_below _ _ _ _ _); [|discriminate]. intros E. injection E as <-. auto. Qed.

(** A complete animation: one frame per uncertainty, its class probabilities and the dot at
    the best class (except in the first frame), the peaks that follow the best class; the
    baseline is that of the first model. *)
Theorem C210_frames :
  forall s s' fs, animate_classprobs s = (s', fs, Ok tt) ->
    exists dg0 ds c0 b0 l f0 fs', dgs = dg0 :: ds /\ fs = f0 :: fs' /\ best_class dg0 c0 /\ best_member dg0 c0 b0 /\ follows c0 b0 ds l /\
      (* the first frame *)
      g_dg f0 = dg0 /\ classprobs dg0 = Some (g_line f0) /\ peaks_of s b0 = Some (g_peaks f0) /\ base_of s b0 = Some (g_base f0) /\
      nth_error (g_line f0) c0 = Some (snd (g_dot f0)) /\
      (* the others *)
      length fs' = length ds /\
      forall i dg cb, nth_error ds i = Some dg -> nth_error l i = Some cb ->
        exists f, nth_error fs' i = Some f /\ g_dg f = dg /\ classprobs dg = Some (g_line f) /\ fst (g_dot f) = AtClass (fst cb) /\
          nth_error (g_line f) (fst cb) = Some (snd (g_dot f)) /\
          (exists m0, peaks_of s (snd cb) = Some m0 /\ Permutation (g_peaks f) m0) /\ g_base f = g_base f0.
Proof.
  intros s s' fs E. unfold Animate.animate_classprobs in E. destruct dgs as [|dg0 ds] eqn:DG; [discriminate|]. rewrite <- DG in *.
  assert (G0 : pyget dgs 0 = Ok dg0) by (rewrite DG; reflexivity). rewrite G0 in E. cbn [bind] in E.
  destruct (best_at sortedclassprobs dg0) as [c0|] eqn:B0; cbn [bind] in E; [|discriminate]. destruct (class_best sortedclasses dg0 c0) as [b0|] eqn:CB; cbn [bind] in E; [|discriminate].
  destruct (look_up classprobs dg0) as [line|] eqn:L1; cbn [bind] in E; [|discriminate]. destruct (negb _); [discriminate|].
  destruct (pyget dgs (Z.of_nat b0)) as [x|] eqn:G1; cbn [bind] in E; [|discriminate]. destruct (pyget line (Z.of_nat c0)) as [y|] eqn:G2; cbn [bind] in E; [|discriminate].
  apply best_at_spec in B0. apply class_best_spec in CB. apply pyget_nat in G2.
  destruct (setcurrent w resample s (Some (Z.of_nat b0))) as [s1 [[]|]] eqn:SC; [|discriminate].
  assert (KEEP : s_results s1 = s_results s /\ s_models s1 = s_models s /\ s_bases s1 = s_bases s /\
    forall x e, p_ext (s_ppe s1) = Some x -> ext_cluster s1 x = Some e -> peaks_of s b0 = Some (c_model e) /\ base_of s b0 = Some (c_base e)).
  { unfold setcurrent in SC. cbn [set_current s_results s_ppe] in SC.
    destruct (pyget (s_results s) (Z.of_nat b0)) as [r|] eqn:G; [|discriminate]. apply pyget_nat in G.
    destruct (resample _ _) as [((rr & yy) & dy)|]; [|discriminate]. destruct (nth_error (s_models s) (r_model r)) as [m|] eqn:M; [|discriminate].
    destruct (nth_error (s_bases s) (r_base r)) as [b|] eqn:BB; [|discriminate]. destruct (make_cluster _ _ _ _ _ _ _ _ _) as [c|]; [|discriminate].
    injection SC as <-. repeat split; auto.
    - cbn in H. injection H as <-. unfold ext_cluster in H0. cbn [s_models s_bases set_ppe set_current e_model e_base] in H0. rewrite M, BB in H0. injection H0 as <-. unfold peaks_of. rewrite G. exact M.
    - cbn in H. injection H as <-. unfold ext_cluster in H0. cbn [s_models s_bases set_ppe set_current e_model e_base] in H0. rewrite M, BB in H0. injection H0 as <-. unfold base_of. rewrite G. exact BB. }
  destruct KEEP as (K1 & K2 & K3 & K4).
  destruct (p_ext (s_ppe s1)) as [ex|] eqn:PX; [|discriminate]. destruct (ext_cluster s1 ex) as [e|] eqn:EC; [|discriminate]. destruct (K4 ex e eq_refl EC) as [K5 K6].
  destruct (copy_cluster w e) as [t|] eqn:CC; [|discriminate]. apply copy_same in CC as [CM CBS].
  destruct (cdraw _); [|discriminate]. destruct (class_loop _ _ _ _ _ _ _ _ _ _) as [fs2 o2] eqn:LL. injection E as <- <- ->.
  replace (tl dgs) with ds in LL by (rewrite DG; reflexivity).
  assert (PE : forall k, peaks_of s1 k = peaks_of s k) by (intros k; unfold peaks_of; now rewrite K1, K2).
  destruct (class_loop_spec s1 (c_base t) ds (c_model t) c0 b0 fs2) as (l & F1 & F2 & F3); [|exact LL|].
  { exists (c_model e). split; [now rewrite PE|]. now rewrite CM. }
  eexists dg0, ds, c0, b0, l, _, fs2. split; [exact DG|]. split; [reflexivity|]. split; [exact B0|]. split; [exact CB|]. split; [exact F1|].
  cbn [g_dg g_line g_dot g_peaks g_base fst snd]. split; [reflexivity|]. split; [unfold look_up in L1; destruct (classprobs dg0); [now injection L1 as ->|discriminate]|].
  split; [now rewrite CM|]. split; [now rewrite CBS|]. split; [exact G2|]. split; [exact F2|].
  intros i dg cb N1 N2. destruct (F3 i dg cb N1 N2) as (f & A1 & A2 & A3 & A4 & A5 & (m0 & A6 & A7) & A8). exists f. rewrite PE in A6.
  repeat (split; [first [assumption | now exists m0]|]). exact A8.
Qed.

(** Violated: as long as the best class stays, the model shown stays, whichever of its members
    is best by now. *)
Theorem C211_stale_model_refuted :
  forall s s' fs dg0 ds b0, animate_classprobs s = (s', fs, Ok tt) -> dgs = dg0 :: ds ->
    (forall c, best_class dg0 c -> best_member dg0 c b0 /\ forall dg, In dg ds -> best_class dg c) ->
    forall f, In f fs -> exists m0, peaks_of s b0 = Some m0 /\ Permutation (g_peaks f) m0.
Proof.
  intros s s' fs dg0 ds b0 E DG H f I. destruct (C210_frames s s' fs E) as (dg0' & ds' & c0 & b0' & l & f0 & fs' & DG' & -> & BC & BM & FO & _ & _ & P0 & _ & _ & LF & FR).
  rewrite DG in DG'. injection DG' as <- <-. destruct (H c0 BC) as [BM' ST].
  assert (b0' = b0) as ->.
  { destruct BM as (cs1 & l1 & E1 & E2), BM' as (cs2 & l2 & E3 & E4). rewrite E1 in E3. injection E3 as <-. rewrite E2 in E4. injection E4 as E4. now apply app_inj_tail in E4. }
  destruct I as [<-|I]; [now exists (g_peaks f0)|].
  assert (ALL : length l = length ds /\ forall cb, In cb l -> snd cb = b0).
  { clear - FO ST. revert l FO. induction ds as [|dg ds IH]; intros l FO; inversion FO as [|? ? ? ? ? B1 B2|? ? ? ? ? ? ? B1 B2 B3 B4]; subst.
    - split; [reflexivity|]. intros cb [].
    - destruct (IH (fun d D => ST d (or_intror D)) l0 B2) as [L1 L2]. split; [cbn [length]; now f_equal|]. intros cb [<-|J]; auto.
    - destruct (ST dg (or_introl eq_refl)) as (l1 & E1). destruct B1 as (l2 & E2). rewrite E1 in E2. injection E2 as E2. apply app_inj_tail in E2 as [_ E2]. congruence. }
  destruct ALL as [LL ALL]. apply In_nth_error in I as [i I]. assert (i < length ds) by (rewrite <- LF; apply nth_error_Some; congruence).
  destruct (nth_error ds i) as [dg|] eqn:N1; [|apply nth_error_None in N1; lia]. destruct (nth_error l i) as [cb|] eqn:N2; [|apply nth_error_None in N2; lia].
  destruct (FR i dg cb N1 N2) as (f' & A1 & _ & _ & _ & _ & A6 & _). rewrite I in A1. injection A1 as <-. rewrite (ALL cb (nth_error_In _ _ N2)) in A6. exact A6.
Qed.

(** Violated: in the first frame the dot is at an uncertainty, on an axis of class numbers. *)
Theorem C211_first_dot_refuted :
  forall s s' fs, animate_classprobs s = (s', fs, Ok tt) -> exists f k, nth_error fs 0 = Some f /\ fst (g_dot f) = AtDg k.
Proof.
  intros s s' fs E. unfold Animate.animate_classprobs in E.
  destruct (pyget dgs 0) as [dg0|]; cbn [bind] in E; [|discriminate]. destruct (best_at sortedclassprobs dg0) as [c0|]; cbn [bind] in E; [|discriminate].
  destruct (class_best sortedclasses dg0 c0) as [b0|]; cbn [bind] in E; [|discriminate]. destruct (look_up classprobs dg0) as [line|]; cbn [bind] in E; [|discriminate].
  destruct (negb _); [discriminate|]. destruct (pyget dgs (Z.of_nat b0)) as [x|]; cbn [bind] in E; [|discriminate]. destruct (pyget line (Z.of_nat c0)) as [y|]; cbn [bind] in E; [|discriminate].
  destruct (setcurrent w resample s _) as [s1 [u|]]; [|discriminate]. destruct (p_ext _); [|discriminate]. destruct (ext_cluster _ _); [|discriminate].
  destruct (copy_cluster _ _); [|discriminate]. destruct (cdraw _); [|discriminate]. destruct (class_loop _ _ _ _ _ _ _ _ _ _) as [fs2 o2]. injection E as <- <- ->.
  eexists. exists x. split; reflexivity.
Qed.
End Classes.
End Props.

(** ** C212 *)
(** Violated: whatever the object, the classes, the filter and the colours are, the plot of the
    class probabilities is never made.  If a class is to be shown, ValueError (numpy cannot
    concatenate a zip object), if none, the empty plot raises. *)
Theorem C212_plot_refuted :
  forall (K W : Type) wle mpl (classprobs : K -> option (list W)) n dGs cs lo hi size norm,
    exists e, plot3dclassprobs wle mpl classprobs n dGs cs lo hi size norm = Err e.
Proof.
  intros K W wle mpl cp n dGs cs lo hi size norm. unfold plot3dclassprobs. destruct (mpl 0); cbn [bind]; [|eauto].
  assert (NONE : forall l z, collect wle cp dGs lo hi l = Ok z -> z = []).
  { induction l as [|i l IH]; intros z E; cbn [collect] in E; [now injection E|].
    match type of E with bind ?x _ = _ => destruct x; cbn [bind] in E; [|discriminate] end. destruct (wmax wle a0); cbn [bind] in E; [|discriminate].
    destruct (_ && _); [|now apply IH]. destruct (pyget dGs 0); cbn in E; discriminate. }
  destruct (collect _ _ _ _ _ _) as [z|] eqn:C; cbn [bind]; [|eauto]. apply NONE in C. subst z.
  destruct size, norm; cbn [bind]; try (eexists; reflexivity); (destruct (mpl 1); cbn [bind]; [|eauto]; destruct (pyget dGs 0); cbn; eauto).
Qed.
(** A class that passes the filter is the reason: ValueError. *)
Theorem C212_shown_class_raises :
  forall (K W : Type) wle mpl (classprobs : K -> option (list W)) n dGs i cs lo hi size norm (y : K -> W),
    (forall dg, In dg dGs -> exists p, classprobs dg = Some p /\ nth_error p i = Some (y dg)) -> dGs <> [] -> mpl 0 = Ok tt ->
    (forall dg, In dg dGs -> wle lo (y dg) = true /\ wle (y dg) hi = true) ->
    plot3dclassprobs wle mpl classprobs n dGs (Some (i :: cs)) lo hi size norm = Err ValueError.
Proof.
  intros K W wle mpl cp n dGs i cs lo hi size norm y H NE M0 FI. unfold plot3dclassprobs. rewrite M0. cbn [bind collect].
  match goal with |- context [bind (?g dGs) _] => assert (G : g dGs = Ok (map y dGs)) end.
  { clear NE FI. induction dGs as [|dg l IH]; [reflexivity|]. destruct (H dg (or_introl eq_refl)) as (p & E1 & E2). rewrite E1. cbn [bind].
    assert (pyget p (Z.of_nat i) = Ok (y dg)) as -> by (now apply pyget_ok). cbn [bind]. rewrite IH by (intros d D; apply H; now right). reflexivity. }
  rewrite G. cbn [bind]. clear G H. destruct dGs as [|d0 l]; [contradiction|]. cbn [map wmax bind].
  assert (IN : forall l m, (exists d, In d (d0 :: l) /\ m = y d) -> forall l', incl l' (d0 :: l) -> exists d, In d (d0 :: l) /\ fold_left (fun m v => if wle m v then v else m) (map y l') m = y d).
  { clear. intros l m Hm l'. revert m Hm. induction l' as [|a l' IH]; intros m Hm I; [exact Hm|]. cbn [map fold_left]. apply IH.
    - destruct (wle m (y a)); [|exact Hm]. exists a. split; [apply I; now left|reflexivity].
    - intros d D. apply I. now right. }
  destruct (IN l (y d0) (ex_intro _ d0 (conj (or_introl eq_refl) eq_refl)) l (fun d D => or_intror D)) as (d & D1 & D2). cbn [map] in D2. rewrite D2.
  destruct (FI d D1) as [-> ->]. reflexivity.
Qed.

(** ** The hypotheses are met *)
(** Three stored results (height 3, 1 and 2); at the uncertainties 0, 1, 2 the best are the
    results 0, 1, 0. *)
Definition anim_probs (k : nat) : option (list nat) := Some [k; k; k].
Definition anim_best (k : nat) : option (list nat) := nth_error [[1; 2; 0]; [0; 2; 1]; [1; 2; 0]] k.
Definition anim_state := fst (srun s0 [3; 1; 2]%Z).
Definition anim_run := animate_probs (xworld idle) sresample (fun _ => Ok tt) [0; 1; 2] anim_probs anim_best anim_state.
Example C209_nonvacuous :
  separate anim_state /\ snd anim_run = Ok tt /\ peaks_of anim_state 0 = Some [xp 2 3 true] /\
  (* the stored result 0 has become the result 1, and the last frame shows that *)
  peaks_of (fst (fst anim_run)) 0 = Some [xp 2 1 true] /\ map f_peaks (snd (fst anim_run)) = [[xp 2 3 true]; [xp 2 1 true]; [xp 2 1 true]].
Proof.
  split; [|vm_compute; auto]. assert (E : srun s0 [3; 1; 2]%Z = (anim_state, Ok tt)) by (vm_compute; reflexivity).
  exact (proj2 (proj2 (C65_run _ _ s0 _ _ (Some 0%Z) eq_refl E))).
Qed.
(** two classes {0, 2} and {1}; the class {0, 2} is best at 0 and 1, but at 1 its best member is 2 *)
Definition anim_class_run := animate_classprobs (xworld idle) sresample (fun _ => Ok tt) [0; 1; 2] [[0; 2]; [1]] (fun k => Some [k; k])
  (fun k => nth_error [[1; 0]; [1; 0]; [0; 1]] k) (fun k => nth_error [[[2; 0]; [1]]; [[0; 2]; [1]]; [[0; 2]; [1]]] k) anim_state.
Example C210_nonvacuous :
  snd anim_class_run = Ok tt /\ map g_peaks (snd (fst anim_class_run)) = [[xp 2 3 true]; [xp 2 3 true]; [xp 2 1 true]].
Proof. vm_compute. auto. Qed.
Example C212_nonvacuous :
  plot3dclassprobs Nat.leb (fun _ => Ok tt) anim_probs 2 [0; 1] None 0 5 Number Auto = Err ValueError /\
  plot3dclassprobs Nat.leb (fun _ => Ok tt) anim_probs 2 [0; 1] None 8 9 Fraction Full = Err IndexError.
Proof. vm_compute. auto. Qed.

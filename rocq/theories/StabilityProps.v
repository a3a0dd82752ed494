(** C65: PeakStability. *)
From Verif Require Import Prelude ModelCluster ModelClusterProofs ModelClusterProps ResampleProps Stability.
Open Scope Z_scope.

Section Props.
Context {P B Q D X : Type}.
Variable w : world P B Q.
Notation ppe := (@ppe P B X). Notation stab := (@stab P B D X). Notation res := (@res D).
Variable resample : ppe -> D -> result (array * array * array).
Variable do_extract : ppe -> option B -> option B * result (list P * option (option B) * cluster P B).
Variable spacing : cluster P B -> result D.
Notation setcurrent := (setcurrent w resample).
Notation run := (run do_extract spacing).

(** what the user sees of a stored result *)
Definition stored (s : stab) (k : nat) : option (Z * option (list P) * option (option B) * D) :=
  option_map (fun r => (r_err r, nth_error (s_models s) (r_model r), nth_error (s_bases s) (r_base r), r_dr r)) (nth_error (s_results s) k).
(** what extracted is *)
Definition current_cluster (s : stab) : option (cluster P B) :=
  match p_ext (s_ppe s) with Some x => ext_cluster s x | None => None end.

(** An index counts from the front, or from the back if negative. *)
Definition index_of (n : nat) (i : Z) (k : nat) : Prop := (k < n)%nat /\ (i = Z.of_nat k \/ i = Z.of_nat k - Z.of_nat n).
Lemma pyget_index {A} (l : list A) i k a : index_of (length l) i k -> nth_error l k = Some a -> pyget l i = Ok a.
Proof.
  intros [L [ -> | -> ]] E; [now apply pyget_ok|]. unfold pyget.
  destruct (Z.ltb_spec (Z.of_nat k - Z.of_nat (length l)) 0); [|lia].
  replace (Z.of_nat k - Z.of_nat (length l) + Z.of_nat (length l)) with (Z.of_nat k) by lia.
  destruct (Z.ltb_spec (Z.of_nat k) 0); [lia|]. destruct (Z.leb_spec (Z.of_nat (length l)) (Z.of_nat k)); [lia|]. cbn [orb]. now rewrite Nat2Z.id, E.
Qed.

Theorem C65_setcurrent :
  forall (s : stab) i k e m b d rr yy dy,
    index_of (length (s_results s)) i k -> stored s k = Some (e, Some m, Some b, d) ->
    (* resampling of the data with the stored uncertainty gives a nonempty grid *)
    resample (set_edy (s_ppe s) e) d = Ok (rr, yy, dy) ->
    length (adat yy) = length (adat rr) -> length (adat dy) = length (adat rr) -> (0 < length (adat rr))%nat ->
    length (valuebl w b (adat rr)) = length (adat rr) ->
    exists s' c, setcurrent s (Some i) = (s', Ok tt) /\
      s_current s' = Some i /\ (forall j, stored s' j = stored s j) /\ length (s_results s') = length (s_results s) /\
      p_edy (s_ppe s') = repeat e (length (p_x (s_ppe s))) /\
      p_x (s_ppe s') = p_x (s_ppe s) /\ p_em (s_ppe s') = p_em (s_ppe s) /\ p_pf (s_ppe s') = p_pf (s_ppe s) /\ p_rest (s_ppe s') = p_rest (s_ppe s) /\
      current_cluster s' = Some c /\ c_model c = m /\ c_base c = b /\ c_r c = rr /\ c_y c = yy /\ c_e c = dy /\
      r_cluster c = adat rr /\ c_em c = p_em (s_ppe s) /\ c_pf c = p_pf (s_ppe s) /\ c_last c = 0%nat.
Proof.
  intros s i k e m b d rr yy dy I ST RS L1 L2 L3 L4. unfold stored in ST.
  destruct (nth_error (s_results s) k) as [r|] eqn:R; [|discriminate]. cbn [option_map] in ST.
  destruct (nth_error (s_models s) (r_model r)) as [m0|] eqn:M; [|discriminate].
  destruct (nth_error (s_bases s) (r_base r)) as [b0|] eqn:BB; [|discriminate]. injection ST as <- <- <- <-.
  unfold Stability.setcurrent. cbn [set_current s_results s_ppe]. rewrite (pyget_index _ _ _ _ I R), RS, M, BB.
  cbn [set_edy p_em p_pf].
  unfold make_cluster, change_slice_from. cbn [c_base c_r c_y c_e c_model c_last c_em c_pf].
  assert (exists v, all_below w (y_nobl w b0 (adat rr) (adat yy)) (adat dy) 0 (length (adat rr)) = Ok v) as [v ->].
  { unfold all_below. destruct (pymax_ok (vsub w (slice (y_nobl w b0 (adat rr) (adat yy)) 0 (length (adat rr))) (slice (adat dy) 0 (length (adat rr))))) as [z ->]; [|cbn; eauto].
    intros E. unfold vsub in E. apply map_eq_nil in E. apply (f_equal (@length _)) in E. rewrite combine_length, !slice_length in E.
    unfold y_nobl, vsub in E. rewrite map_length, combine_length in E. cbn [length] in E. lia. }
  eexists _, _. split; [reflexivity|]. cbn [set_ppe s_current s_results s_ppe set_ext p_edy p_x p_em p_pf p_rest set_edy set_current].
  split; [reflexivity|]. split; [intros j; reflexivity|]. split; [reflexivity|]. split; [reflexivity|].
  split; [reflexivity|]. split; [reflexivity|]. split; [reflexivity|]. split; [reflexivity|].
  unfold current_cluster, ext_cluster. cbn [set_ppe s_ppe set_ext p_ext s_models s_bases e_model e_base e_frame set_current]. rewrite M, BB.
  split; [reflexivity|]. cbn [set_base set_model c_model c_base c_r c_y c_e c_em c_pf c_last].
  repeat (split; [reflexivity|]). split; [|repeat split].
  unfold r_cluster, slice. cbn [c_r c_start c_stop set_base set_model skipn]. rewrite Nat.sub_0_r. apply firstn_all.
Qed.
Theorem C65_none :
  forall s : stab, exists s', setcurrent s None = (s', Ok tt) /\ s_current s' = None /\ (forall j, stored s' j = stored s j) /\
    current_cluster s' = None /\ p_edy (s_ppe s') = p_edy (s_ppe s).
Proof. intros s. eexists. split; [reflexivity|]. repeat split. Qed.

(** The extracter as it is when the run for uncertainty e starts. *)
Definition at_error (s : stab) (e : Z) : ppe :=
  mkPpe (p_x (s_ppe s)) (repeat e (length (p_x (s_ppe s)))) None (p_em (s_ppe s)) (p_pf (s_ppe s)) (p_base (s_ppe s)) (p_rest (s_ppe s)).
(** Extractions one after the other, with the uncertainties errs and otherwise the settings
    of s, each starting from the baseline the one before has left: [b] at first, [b'] at last.
    For each: the uncertainty, the model, the baseline if it has one of its own, the spacing. *)
Inductive extractions (s : stab) : option B -> list Z -> list (Z * list P * option (option B) * D) -> option B -> Prop :=
| ex_none : forall b, extractions s b [] [] b
| ex_one : forall b e errs b1 m own c d outs b',
    do_extract (at_error s e) b = (b1, Ok (m, own, c)) -> spacing c = Ok d -> extractions s b1 errs outs b' ->
    extractions s b (e :: errs) ((e, m, own, d) :: outs) b'.
Lemma extractions_same s s1 : (forall e, at_error s1 e = at_error s e) -> forall b errs outs b', extractions s1 b errs outs b' -> extractions s b errs outs b'.
Proof. intros H b errs outs b' E. induction E as [|b e errs b1 m own c d outs b' E1 E2 _ IH]; econstructor; eauto. now rewrite <- H. Qed.

Definition wf (s : stab) : Prop := forall r, In r (s_results s) -> (r_model r < length (s_models s))%nat /\ (r_base r < length (s_bases s))%nat.
Lemma upd_same {A} (l : list A) k v : (k < length l)%nat -> nth_error (upd l k v) k = Some v.
Proof. revert k. induction l as [|a l IH]; intros [|k] H; cbn in *; try lia; [reflexivity|]. apply IH. lia. Qed.
Lemma upd_apart {A} (l : list A) k j v : j <> k -> nth_error (upd l k v) j = nth_error l j.
Proof. revert k j. induction l as [|a l IH]; intros [|k] [|j] H; cbn; try congruence; auto. Qed.
Lemma upd_len {A} (l : list A) : forall k v, length (upd l k v) = length l.
Proof. induction l as [|a l IH]; intros [|k] v; cbn; auto. Qed.

Lemma run_all_spec errs : forall (s s' : stab) b, wf s -> nth_error (s_bases s) (p_base (s_ppe s)) = Some b ->
  run_all do_extract spacing s errs = (s', Ok tt) ->
  exists outs b', extractions s b errs outs b' /\ p_base (s_ppe s') = p_base (s_ppe s) /\ nth_error (s_bases s') (p_base (s_ppe s)) = Some b' /\ wf s' /\
  (exists ms, s_models s' = s_models s ++ ms) /\ (length (s_bases s) <= length (s_bases s'))%nat /\
  (forall a, a <> p_base (s_ppe s) -> (a < length (s_bases s))%nat -> nth_error (s_bases s') a = nth_error (s_bases s) a) /\
  length (s_results s') = (length (s_results s) + length errs)%nat /\
  (forall k r, nth_error (s_results s) k = Some r -> nth_error (s_results s') k = Some r) /\
  (forall k e m own d, nth_error outs k = Some (e, m, own, d) ->
     stored s' (length (s_results s) + k) = Some (e, Some m, Some (match own with Some o => o | None => b' end), d)) /\
  (forall i j r r', (length (s_results s) <= i)%nat -> nth_error (s_results s') i = Some r -> nth_error (s_results s') j = Some r' -> i <> j -> r_model r <> r_model r') /\
  (forall k r, (length (s_results s) <= k)%nat -> nth_error (s_results s') k = Some r -> (length (s_models s) <= r_model r)%nat).
Proof.
  induction errs as [|e errs IH]; intros s s' b WF BB; cbn [run_all].
  - intros [= <-]. exists [], b. split; [constructor|]. split; [reflexivity|]. split; [exact BB|]. split; [exact WF|]. split; [exists []; now rewrite app_nil_r|]. split; [lia|].
    split; [auto|]. split; [cbn; lia|]. split; [auto|].
    split; [intros [|k]; discriminate|]. split; [intros i j r r' L E; assert (i < length (s_results s))%nat by (apply nth_error_Some; congruence); lia|].
    intros k r L E. assert (k < length (s_results s))%nat by (apply nth_error_Some; congruence). lia.
  - unfold run_one. change (set_edy (set_ext (s_ppe s) None) e) with (at_error s e). change (p_base (at_error s e)) with (p_base (s_ppe s)). rewrite BB.
    destruct (do_extract (at_error s e) b) as [b1 out] eqn:EX. destruct out as [[[m own] c]|]; [|intros; discriminate].
    destruct (spacing c) as [d|] eqn:SP; [|intros; discriminate]. cbn [s_models s_bases s_results s_ppe s_current].
    set (bs1 := match own with Some b0 => _ ++ [b0] | None => _ end). set (ab := match own with Some _ => length _ | None => _ end). set (s1 := mkStab _ _ _ _ _). intros H.
    assert (PB : (p_base (s_ppe s) < length (s_bases s))%nat) by (apply nth_error_Some; congruence).
    assert (LB : (length (s_bases s) <= length bs1)%nat /\ (ab < length bs1)%nat).
    { unfold bs1, ab. destruct own; [rewrite app_length|]; rewrite upd_len; cbn [length]; lia. }
    assert (B1 : nth_error bs1 (p_base (s_ppe s)) = Some b1).
    { unfold bs1. destruct own; [rewrite nth_error_app1 by (rewrite upd_len; lia)|]; now apply upd_same. }
    assert (BO : forall a, a <> p_base (s_ppe s) -> (a < length (s_bases s))%nat -> nth_error bs1 a = nth_error (s_bases s) a).
    { intros a N L. unfold bs1. destruct own; [rewrite nth_error_app1 by (rewrite upd_len; lia)|]; now apply upd_apart. }
    assert (WF1 : wf s1).
    { intros r IN. cbn [s1 s_results s_models s_bases] in *. rewrite !app_length. cbn [length]. apply in_app_or in IN as [IN|[<-|[]]]; [specialize (WF r IN); lia|cbn [r_model r_base]; lia]. }
    destruct (IH s1 s' b1 WF1 B1 H) as (outs & b' & XS & PB' & BE & WF' & (ms & EM) & LB' & BO' & LR & KP & ST & DS & FR).
    change (p_base (s_ppe s1)) with (p_base (s_ppe s)) in *. cbn [s1 s_models s_bases s_results] in EM, LB', BO', LR. rewrite app_length in LR. cbn [length] in LR.
    assert (NEW : nth_error (s_results s') (length (s_results s)) = Some (mkRes e (length (s_models s)) ab d)).
    { apply KP. cbn [s1 s_results]. rewrite nth_error_app2, Nat.sub_diag by lia. reflexivity. }
    exists ((e, m, own, d) :: outs), b'.
    split; [econstructor; [exact EX|exact SP|]; now apply (extractions_same s s1)|]. split; [exact PB'|]. split; [exact BE|]. split; [exact WF'|].
    split; [exists (m :: ms); rewrite EM, <- app_assoc; reflexivity|]. split; [lia|].
    split; [intros a N L; rewrite BO' by (auto; lia); now apply BO|].
    split; [cbn [length]; lia|].
    split; [intros k r E; apply KP; cbn [s1 s_results]; rewrite nth_error_app1; [exact E|apply nth_error_Some; congruence]|].
    split.
    { intros [|k] e' m' own' d' E; cbn [nth_error] in E.
      - injection E as <- <- <- <-. rewrite Nat.add_0_r. unfold stored. rewrite NEW. cbn [option_map r_err r_model r_base r_dr].
        rewrite EM, <- app_assoc. rewrite (nth_error_app2 (s_models s)), Nat.sub_diag by lia.
        assert (nth_error (s_bases s') ab = Some (match own with Some o => o | None => b' end)) as ->; [|reflexivity].
        unfold ab. destruct own as [o|]; [|exact BE]. rewrite BO'; [|rewrite upd_len; lia|unfold bs1; rewrite app_length; cbn; lia].
        unfold bs1. rewrite nth_error_app2, Nat.sub_diag by lia. reflexivity.
      - specialize (ST k e' m' own' d' E). cbn [s1 s_results] in ST. rewrite app_length in ST. cbn [length] in ST. replace (length (s_results s) + S k)%nat with (length (s_results s) + 1 + k)%nat by lia. exact ST. }
    assert (OLD : forall j r, (j < length (s_results s))%nat -> nth_error (s_results s') j = Some r -> (r_model r < length (s_models s))%nat).
    { intros j r L E. destruct (nth_error (s_results s) j) as [r0|] eqn:E0; [|apply nth_error_None in E0; lia].
      assert (nth_error (s_results s') j = Some r0) by (apply KP; cbn [s1 s_results]; rewrite nth_error_app1; assumption).
      assert (r0 = r) as <- by congruence. apply nth_error_In in E0. apply WF in E0. lia. }
    assert (POST : forall j r, (length (s_results s) < j)%nat -> nth_error (s_results s') j = Some r -> (length (s_models s) < r_model r)%nat).
    { intros j r L E. cbn [s1 s_results s_models] in FR. rewrite !app_length in FR. cbn [length] in FR. specialize (FR j r). rewrite E in FR. specialize (FR ltac:(lia) eq_refl). lia. }
    split.
    + intros i j r r' LI Ei Ej NE. destruct (Nat.eq_dec i (length (s_results s))) as [->|N].
      * assert (r = mkRes e (length (s_models s)) ab d) as -> by congruence. cbn [r_model].
        destruct (Nat.lt_ge_cases j (length (s_results s))) as [LJ|LJ]; [apply (OLD _ _ LJ) in Ej; lia|]. apply POST in Ej; lia.
      * apply (DS i j); auto. cbn [s1 s_results]. rewrite app_length. cbn [length]. lia.
    + intros k r L E. destruct (Nat.eq_dec k (length (s_results s))) as [->|N]; [assert (r = mkRes e (length (s_models s)) ab d) as -> by congruence; cbn [r_model]; lia|].
      apply POST in E; lia.
Qed.
(** One result per uncertainty, in order, and nothing left over from earlier runs; each has
    the uncertainty, the model and the spacing of its extraction; different results share no
    model object.  The baseline of a result is its own, or the extracter's with whatever the
    last extraction has left in it. *)
Theorem C65_run :
  forall (s : stab) errs s' b, nth_error (s_bases s) (p_base (s_ppe s)) = Some b ->
    run s errs = (s', Ok tt) ->
    length (s_results s') = length errs /\
    (exists outs b', extractions s b errs outs b' /\ nth_error (s_bases s') (p_base (s_ppe s')) = Some b' /\
       forall k e m own d, nth_error outs k = Some (e, m, own, d) ->
         stored s' k = Some (e, Some m, Some (match own with Some o => o | None => b' end), d)) /\
    (forall i j r r', nth_error (s_results s') i = Some r -> nth_error (s_results s') j = Some r' -> i <> j -> r_model r <> r_model r').
Proof.
  intros s errs s' b BB H. unfold Stability.run in H. eapply run_all_spec in H; [|intros r []|exact BB].
  destruct H as (outs & b' & XS & PB & BE & _ & _ & _ & _ & L & _ & E & DS & _). cbn [s_results s_ppe length] in *. split; [exact L|]. split.
  - exists outs, b'. split; [revert XS; apply extractions_same; reflexivity|]. split; [now rewrite PB|exact E].
  - intros i j r r' Ei Ej N. apply (DS i j); auto. lia.
Qed.
(** If extraction from the extracter's baseline leaves it alone and gives models with a
    baseline of their own (C215), the runs do not depend on each other: each result is what
    extraction with its uncertainty gives at any time. *)
Theorem C65_independent_runs :
  forall (s : stab) errs s' b, nth_error (s_bases s) (p_base (s_ppe s)) = Some b ->
    (forall e b1 out, In e errs -> do_extract (at_error s e) b = (b1, out) -> b1 = b /\ forall m own c, out = Ok (m, own, c) -> own <> None) ->
    run s errs = (s', Ok tt) ->
    nth_error (s_bases s') (p_base (s_ppe s')) = Some b /\
    forall k e, nth_error errs k = Some e -> exists m o c d,
      do_extract (at_error s e) b = (b, Ok (m, Some o, c)) /\ spacing c = Ok d /\ stored s' k = Some (e, Some m, Some o, d).
Proof.
  intros s errs s' b BB HI H. destruct (C65_run s errs s' b BB H) as (_ & (outs & b' & XS & BE & ST) & _).
  assert (G : forall b0, extractions s b0 errs outs b' -> b0 = b -> b' = b /\ forall k e, nth_error errs k = Some e -> exists m o c d,
      do_extract (at_error s e) b = (b, Ok (m, Some o, c)) /\ spacing c = Ok d /\ nth_error outs k = Some (e, m, Some o, d)).
  { clear XS BE ST H. intros b0 XS. induction XS as [b0|b0 e errs b1 m own c d outs b' E1 E2 XS IH]; intros ->; [split; [reflexivity|intros [|k] e; discriminate]|].
    destruct (HI e b1 _ (or_introl eq_refl) E1) as [-> HO]. destruct own as [o|]; [|now destruct (HO _ _ _ eq_refl)].
    destruct (IH ltac:(intros; eapply HI; [right; eassumption|eassumption]) eq_refl) as [-> IHk]. split; [reflexivity|].
    intros [|k] e' E; cbn [nth_error] in *; [injection E as <-; exists m, o, c, d; auto|]. now apply IHk. }
  destruct (G b XS eq_refl) as [-> GK]. split; [exact BE|]. intros k e E. destruct (GK k e E) as (m & o & c & d & X1 & X2 & X3). exists m, o, c, d. split; [exact X1|]. split; [exact X2|]. exact (ST _ _ _ _ _ X3).
Qed.
(** An index out of range raises, but the current index has been changed already. *)
Theorem C92_bad_index_refuted :
  forall (s : stab) i, Z.of_nat (length (s_results s)) <= i ->
    snd (setcurrent s (Some i)) = Err IndexError /\ s_current (fst (setcurrent s (Some i))) = Some i /\
    current_cluster (fst (setcurrent s (Some i))) = current_cluster s.
Proof.
  intros s i H. unfold Stability.setcurrent. cbn [set_current s_results].
  assert (pyget (s_results s) i = Err IndexError) as ->.
  { unfold pyget. destruct (Z.ltb_spec i 0); [lia|]. destruct (Z.ltb_spec i 0); [lia|]. destruct (Z.leb_spec (Z.of_nat (length (s_results s))) i); [|lia]. reflexivity. }
  repeat split.
Qed.
(** Fitting the extracted cluster after setcurrent changes the stored result: it is the
    same model object. *)
Theorem C92_refit_refuted :
  forall (s : stab) i k e m b d rr yy dy justify ntrials fb est,
    index_of (length (s_results s)) i k -> stored s k = Some (e, Some m, Some b, d) ->
    resample (set_edy (s_ppe s) e) d = Ok (rr, yy, dy) ->
    length (adat yy) = length (adat rr) -> length (adat dy) = length (adat rr) -> (0 < length (adat rr))%nat ->
    length (valuebl w b (adat rr)) = length (adat rr) ->
    exists c, current_cluster (fst (setcurrent s (Some i))) = Some c /\
      (let r := fit w c justify ntrials fb est in
       stored (fit_extracted w (fst (setcurrent s (Some i))) justify ntrials fb est) k = Some (e, Some (fr_list r), Some (fr_base r), d)).
Proof.
  intros s i k e m b d rr yy dy justify ntrials fb est I ST RS L1 L2 L3 L4.
  destruct (C65_setcurrent s i k e m b d rr yy dy I ST RS L1 L2 L3 L4) as (s' & c & E & _ & STs & _ & _ & _ & _ & _ & _ & CC & _).
  rewrite E. cbn [fst]. exists c. split; [exact CC|].
  unfold stored in *. destruct (nth_error (s_results s) k) as [r|] eqn:R; [|discriminate]. cbn [option_map] in ST.
  destruct (nth_error (s_models s) (r_model r)) as [m0|] eqn:M; [|discriminate]. destruct (nth_error (s_bases s) (r_base r)) as [b0|] eqn:BB; [|discriminate]. injection ST as <- <- <- <-.
  unfold Stability.setcurrent in E. cbn [set_current s_results s_ppe] in E. rewrite (pyget_index _ _ _ _ I R), RS, M, BB in E.
  destruct (make_cluster _ _ _ _ _ _ _ _ _) as [c0|]; [|discriminate]. injection E as <-.
  unfold current_cluster in CC. cbn [set_ppe s_ppe set_ext p_ext] in CC.
  unfold fit_extracted. cbn [set_ppe s_ppe set_ext p_ext]. cbn [set_ppe set_ext] in CC. unfold set_ext in *. unfold set_ppe in *. cbn [s_models s_bases s_results s_ppe s_current set_current] in *. rewrite CC.
  cbn [e_model e_base s_results s_models s_bases]. rewrite R. cbn [option_map].
  assert (U : forall A (l : list A) a x, (a < length l)%nat -> nth_error (upd l a x) a = Some x).
  { intros A l. induction l as [|y l IH]; intros [|a] x H; cbn in *; try lia; [reflexivity|]. apply IH. lia. }
  rewrite !U by (apply nth_error_Some; congruence). reflexivity.
Qed.
End Props.

(** ** The hypotheses are met *)
Definition srun := run (X:=unit) (fun (p : ppe) b => (b, Ok ([xp 2 (hd 0 (p_edy p)) true], Some b, xc1))) (fun c => Ok (length (r_cluster c))).
(* an extraction that leaves the user's baseline in the model and adds the uncertainty to it *)
Definition srun_shared := run (X:=unit) (fun (p : ppe) b => (option_map (Z.add (hd 0 (p_edy p))) b, Ok ([xp 2 (hd 0 (p_edy p)) true], None, xc1))) (fun c => Ok (length (r_cluster c))).
Definition sresample (p : @ppe xpeak Z unit) (n : nat) : result (array * array * array) := Ok (xr, xy, mkArr 9 (firstn n (p_edy p))).
Definition s0 : @stab xpeak Z nat unit := mkStab [] [Some 0] [] (mkPpe [0; 1; 2; 3; 4; 5] [] None 0 [7%nat] 0 tt) None.
Example C65_example :
  snd (srun s0 [3; 1]) = Ok tt /\ stored (fst (srun s0 [3; 1])) 1 = Some (1, Some [xp 2 1 true], Some (Some 0), 6%nat) /\
  index_of 2 (-1) 1 /\ snd (setcurrent (xworld idle) sresample (fst (srun s0 [3; 1])) (Some (-1))) = Ok tt /\
  stored (fit_extracted (xworld (sethgt 9)) (fst (setcurrent (xworld idle) sresample (fst (srun s0 [3; 1])) (Some (-1)))) false 0 false true) 1
    = Some (1, Some [xp 2 9 true], Some (Some 0), 6%nat) /\
  stored (fst (srun_shared s0 [3; 1])) 0 = Some (3, Some [xp 2 3 true], Some (Some 4), 6%nat).
Proof. repeat split; try (cbn; lia); vm_compute; reflexivity. Qed.

Print Assumptions C65_setcurrent.
Print Assumptions C65_none.
Print Assumptions C65_run.
Print Assumptions C65_independent_runs.
Print Assumptions C92_bad_index_refuted.
Print Assumptions C92_refit_refuted.

(** Property C215: which baseline object an extraction changes. *)
From Coq Require Import Permutation Sorted Reals Lra String.
From Verif Require Import Prelude Evaluators ModelCluster ModelClusterProofs ModelClusterProps Prune PruneProofs PruneProps AugmentProps Nyquist Extract ExtractProofs ExtractProps ExtractBaseProps Ownership PdfExtract PdfExtractProps.
From Verif Require Stability StabilityProps.
From Verif Require DataClusters DataClustersSpec DataClustersAdj DataClustersProofs DataClustersMore DataClustersProps DataClustersExamples EvaluatorsProps VarsProps TracerProps.
Open Scope Z_scope.
Open Scope list_scope.
Notation length := List.length.

Section Props.
Context {P B Q : Type}.
Variable T : xtools P B Q.
Notation w := (t_w T).
Notation cluster := (cluster P B).
Variables (bl : B) (cres : Z) (em : nat) (pf : list nat).

(** ** The first flag *)
Lemma hd_lower fl k b : hd true fl = false -> hd true (lower fl k b) = false.
Proof. unfold lower. destruct fl as [|f fl]; [discriminate|]. cbn [hd]. intros ->. destruct k; reflexivity. Qed.
Lemma hd_upd_false fl k : hd true fl = false -> hd true (upd fl k false) = false.
Proof. destruct fl as [|f fl]; [discriminate|]. cbn [hd]. intros ->. destruct k; reflexivity. Qed.
Lemma hd_upd0 fl : fl <> [] -> hd true (upd fl 0 false) = false.
Proof. destruct fl; [contradiction|reflexivity]. Qed.
Lemma lower_len fl k b : length (lower fl k b) = length fl.
Proof. unfold lower. generalize (nth k fl true && b). intros v. revert k. induction fl as [|f fl IH]; intros [|k]; cbn; auto. Qed.
Lemma hd_del fl k : (1 <= k)%nat -> hd true (del_at fl k) = hd true fl.
Proof. destruct fl, k; cbn; try lia; reflexivity. Qed.
Lemma nonempty_len {A} (l : list A) : l <> [] <-> (0 < length l)%nat.
Proof. destruct l; cbn; split; try congruence; lia. Qed.

Lemma fit_all_flags is : forall mcs fl, length (own_fit_all T mcs is fl) = length fl /\ (hd true fl = false -> hd true (own_fit_all T mcs is fl) = false).
Proof.
  induction is as [|a is IH]; intros mcs fl; [split; auto|]. cbn [own_fit_all]. destruct (nth_error mcs a) as [c|]; [|split; auto]. destruct (fit_true T c); [|split; auto].
  destruct (IH (upd mcs a a0) (lower fl a (keeps T c true false true))) as [L H]. split; [now rewrite L, lower_len|]. intros F. now apply H, hd_lower.
Qed.
Lemma fit_last_flags mcs k mp fl : length (own_fit_last T mcs k mp fl) = length fl /\ (hd true fl = false -> hd true (own_fit_last T mcs k mp fl) = false).
Proof.
  unfold own_fit_last. destruct (nth_error mcs k); [|split; auto]. destruct (fit_due _ _ _ _); [|split; auto]. split; [apply lower_len|apply hd_lower].
Qed.
Section Call.
Variable rec : list Z -> list Z -> list Z -> option (result cluster).
Variable depth : nat.
Variables ax ay ae : array.
Lemma combine_all_flags cs is : forall mcs fl, (forall i, In i is -> (1 <= i)%nat) -> hd true fl = false ->
  hd true (own_combine_all T bl em pf rec depth ax ay ae cs mcs is fl) = false.
Proof.
  induction is as [|i is IH]; intros mcs fl HI F; [exact F|]. cbn [own_combine_all]. destruct (combine_pair _ _ _ _ _ _ _ _ _ _ _ _) as [[m|]|]; try exact F.
  apply IH; [intros j J; apply HI; now right|]. unfold own_combine_pair. destruct (joined _ _ _ _ _ _ _ _ _ _ _ _) as [[c|]|]; try exact F.
  rewrite hd_del by (apply HI; now left). now apply hd_lower.
Qed.

(** *** [joined] is combine_pair without its last fit. *)
Lemma combine_joined cs mcs idx : combine_pair T bl em pf rec depth ax ay ae cs mcs idx =
  odo c <- joined T bl em pf rec depth ax ay ae cs mcs idx; odo c' <- lift (fit_true T c); Some (Ok (del_at (upd mcs (idx - 1)%nat c') idx)).
Proof.
  unfold combine_pair, joined. destruct (nth_error cs (idx - 1)) as [cl|]; [|reflexivity]. destruct (nth_error cs idx) as [cr|]; [|reflexivity].
  destruct (nth_error mcs (idx - 1)) as [ml|]; [|reflexivity]. destruct (nth_error mcs idx) as [mr|]; [|reflexivity].
  destruct (join_adjacent w ml mr) as [new|]; [|reflexivity]. cbn [lift obind]. destruct (pyget (adat ax) (snd cl)) as [x1|]; [|reflexivity]. cbn [lift obind].
  destruct (pyget (adat ax) (fst cr)) as [x2|]; [|reflexivity]. cbn [lift obind]. destruct (pyget (adat ay) (snd cl)) as [y1|]; [|reflexivity]. cbn [lift obind].
  destruct (pyget (adat ay) (fst cr)) as [y2|]; [|reflexivity]. cbn [lift obind]. destruct (adj_cluster _ _ _ _ _ _ _ _) as [a|]; [|reflexivity]. cbn [lift obind].
  destruct (first_variant _ _ _ _ _ _ _ _ _ _ _ _ _) as [[a1|]|]; [|reflexivity|reflexivity]. cbn [lift obind].
  destruct (second_variant _ _ _ _ _ _ _ _ _ _) as [[a2|]|]; [|reflexivity|reflexivity]. cbn [lift obind].
  destruct (copy_cluster _ _); [|reflexivity]. cbn [lift obind]. unfold rebuild. destruct (replacepeaks _ _ _ _ _) as [m [u|x]]; [|reflexivity]. cbn [lift obind]. reflexivity.
Qed.

Hypothesis SANE : sane T bl.
Hypothesis ARR : arrays_ok ax ay ae.
Variable yd : list Z.
(** Once the first point of the data is in a cluster, the first model holds a copy. *)
Definition copied (s : DataClusters.dc) (fl : list bool) : Prop :=
  length fl = length (dcl s) /\ match dcl s with (lo, _) :: _ => lo = 0 -> hd true fl = false | [] => True end.

Lemma combine_pair_len cs mcs i m' : combine_pair T bl em pf rec depth ax ay ae cs mcs i = Some (Ok m') -> (1 <= i < length mcs)%nat -> S (length m') = length mcs.
Proof.
  rewrite combine_joined. intros E Hi. apply obind_ok in E as (c & _ & E). apply obind_ok in E as (c' & _ & E). injection E as <-.
  unfold del_at. rewrite app_length, firstn_length, skipn_length, DataClustersProofs.upd_length. lia.
Qed.
Lemma combine_all_len cs is : forall mcs m' fl, combine_all T bl em pf rec depth ax ay ae cs mcs is = Some (Ok m') ->
  length fl = length mcs -> (forall i, In i is -> (1 <= i)%nat) ->
  length (own_combine_all T bl em pf rec depth ax ay ae cs mcs is fl) = length m'.
Proof.
  induction is as [|i is IH]; intros mcs m' fl E L HI; cbn [combine_all own_combine_all] in *; [now injection E as <-|].
  destruct (combine_pair T bl em pf rec depth ax ay ae cs mcs i) as [[m1|]|] eqn:E1; cbn [obind] in E; try discriminate.
  assert (Hi : (1 <= i < length mcs)%nat).
  { split; [apply HI; now left|]. apply nth_error_Some. unfold combine_pair in E1. destruct (nth_error cs (i - 1)), (nth_error cs i), (nth_error mcs (i - 1)), (nth_error mcs i); discriminate || (intros; discriminate). }
  apply IH; [exact E| |intros j J; apply HI; now right]. pose proof (combine_pair_len _ _ _ _ E1 Hi) as L1.
  unfold own_combine_pair. rewrite combine_joined in E1. apply obind_ok in E1 as (c & EJ & _). rewrite EJ.
  unfold del_at. rewrite app_length, firstn_length, skipn_length, lower_len. lia.
Qed.

Lemma sync_flags s mcs fl : length fl = length mcs -> forall k m1, DataClusters.lastc s = Some k -> (k <= length mcs)%nat ->
  sync T bl em pf ax ay ae s mcs = Ok m1 ->
  length (own_sync s mcs fl) = length m1 /\ ((1 <= k)%nat \/ (length (dcl s) <= length mcs)%nat -> hd true (own_sync s mcs fl) = hd true fl).
Proof using Type.
  intros L k m1 LC HK E. unfold sync in E. rewrite LC in E. destruct (DataClusters.cut s k) as [sl|]; cbn [bind] in E; [|discriminate].
  unfold own_sync. rewrite LC. destruct (Nat.ltb_spec (length mcs) (length (DataClusters.clusters s))) as [C|C].
  - destruct (fresh _ _ _ _ _ _ _ _) as [c|]; cbn [bind] in E; [|discriminate]. injection E as <-. split.
    + unfold insert_at. rewrite !app_length. cbn [length]. rewrite !firstn_length, !skipn_length. lia.
    + intros [H|H]; [|lia]. destruct k as [|k]; [lia|]. destruct fl as [|f fl]; [|reflexivity]. cbn in L. destruct mcs; [cbn in HK; lia|discriminate].
  - destruct (nth_error mcs k) as [c|]; [|discriminate]. destruct (change_slice _ _ _ _) as [c' [u|]]; [|discriminate]. injection E as <-.
    rewrite DataClustersProofs.upd_length. auto.
Qed.

Lemma first_lo n cs : DataClustersSpec.well_formed n cs -> DataClustersSpec.covered cs 0 ->
  match cs with (lo, _) :: _ => lo = 0 | [] => False end.
Proof using Type.
  clear. intros [W1 W2] (lo & hi & I & H). destruct cs as [|[l h] cs]; [contradiction|]. apply In_nth_error in I as (j & Hj). pose proof (W1 _ _ _ Hj). pose proof (W1 0%nat l h eq_refl).
  destruct j as [|j]; [cbn in Hj; injection Hj as <- <-; lia|]. pose proof (W2 0%nat (S j) l h lo hi ltac:(lia) eq_refl Hj). lia.
Qed.

(** One iteration. *)
Lemma step_copied mp s mcs fl s1 s2 m2 : inv T bl cres em ax ay ae yd s mcs -> copied s fl -> DataClusters.next (w_rnd w) s = (s1, Ok tt) ->
  iteration T bl em pf rec depth ax ay ae mp s1 mcs = Some (Ok (s2, m2)) ->
  inv T bl cres em ax ay ae yd s2 m2 /\ copied s2 (own_iteration T bl em pf rec depth ax ay ae mp s1 mcs fl).
Proof.
  intros I [LF HF] N E. pose proof SANE as (H1 & H2 & H3 & H4 & H5 & H6). pose proof ARR as (A1 & A2 & A3 & A4).
  assert (R : DataClustersSpec.reach (w_rnd w) (t_argsort T) (adat ax) yd cres s) by apply I.
  assert (R1 : DataClustersSpec.reach (w_rnd w) (t_argsort T) (adat ax) yd cres s1).
  { replace s1 with (fst (DataClusters.next (w_rnd w) s)) by (rewrite N; reflexivity). now apply DataClustersSpec.reach_next. }
  destruct (head_ok T bl cres em pf rec ax ay ae H1 H3 H5 A1 A2 A3 A4 _ _ _ _ I N) as (m1 & l & m & EH & F & Hm & HT & FA).
  unfold own_iteration. rewrite EH. unfold iteration in E. rewrite EH in E. cbn [obind lift] in E.
  assert (I2 : inv T bl cres em ax ay ae yd s2 m2) by (eapply (body_inv T bl cres em pf rec depth ax ay ae H1 H2 H3 H4 H5 A1 A2 A3 A4 yd); [exact R1|exact F|exact Hm|exact HT|exact FA|exact E]).
  split; [exact I2|].
  destruct (DataClustersProps.C01_clusters_well_formed _ _ _ _ _ _ H1 H3 A3 A4 R1) as (W & _).
  destruct (DataClustersProps.C02_next_progress _ _ _ _ _ _ _ H1 H3 A3 A4 R N) as (t & k & lo & hi & LP & HTR & _ & _ & _ & LC & NK & HK).
  pose proof (Forall2_len _ _ _ (i_match _ _ _ _ _ _ _ _ _ _ I)) as LM. pose proof (Forall2_len _ _ _ F) as LM1.
  assert (SY : sync T bl em pf ax ay ae s1 mcs = Ok m1).
  { unfold head in EH. destruct (sync _ _ _ _ _ _ _ s1 mcs) as [m1'|]; cbn [bind] in EH; [|discriminate]. destruct (adjacent_of s1); cbn [bind] in EH; [|discriminate].
    destruct (assertions s1 m1' a); cbn [bind] in EH; [|discriminate]. congruence. }
  assert (X1 : length (adat ax) = length (DataClusters.xs s1)).
  { pose proof (DataClustersMore.A_inv _ _ _ _ _ _ H1 H3 A3 A4 R1) as IV. destruct IV. congruence. }
  set (f1 := own_sync s1 mcs fl).
  assert (KL : (k <= length mcs)%nat).
  { assert (k < length (dcl s1))%nat by (apply nth_error_Some; congruence).
    destruct (DataClustersProps.C04_resolution_rule _ _ _ _ _ _ _ _ H1 H3 A3 A4 R N LP) as [(pre & post & EA & EB & _)|(pre & post & l0 & h0 & EA & EB & _)];
      rewrite EB, app_length in H; rewrite <- LM, EA, app_length; cbn [length] in *; lia. }
  destruct (sync_flags s1 mcs fl ltac:(congruence) k m1 LC KL SY) as [LF1 HF1]. fold f1 in LF1, HF1.
  (* either the new point is the first one, or the flag is right already *)
  assert (KEY : (k = 0%nat /\ t = 0) \/ (match dcl s1 with (lo, _) :: _ => lo = 0 -> hd true f1 = false | [] => True end)).
  { destruct (DataClustersProps.C04_resolution_rule _ _ _ _ _ _ _ _ H1 H3 A3 A4 R N LP) as [(pre & post & EA & EB & EC & _)|(pre & post & l0 & h0 & EA & EB & EC & _)];
      rewrite LC in EC; injection EC as ->; rewrite EA in HF; rewrite EB.
    - destruct pre as [|[p q] pre]; cbn [app length] in *.
      + destruct (Z.eq_dec t 0) as [|D]; [now left|right; intros C; contradiction].
      + right. intros C. rewrite HF1 by (left; lia). now apply HF.
    - destruct pre as [|[p q] pre]; cbn [app length] in *.
      + destruct (Z.eq_dec t 0) as [|D]; [now left|right; intros C]. rewrite HF1 by (right; rewrite EB, <- LM, EA; cbn; lia). apply HF. lia.
      + right. intros C. rewrite HF1 by (left; lia). now apply HF. }
  unfold body in E. unfold own_body. rewrite LC, LP in *.
  apply obind_ok in E as (mA & EA & E). apply lift_ok in EA. rewrite EA. apply obind_ok in E as (mB & EB & E). apply lift_ok in EB. rewrite EB.
  apply obind_ok in E as (mC & EC & E). apply obind_ok in E as (mD & ED & E).
  change ((t =? 0) || (t =? Z.of_nat (length (DataClusters.xs s1)) - 1)) with (at_end s1 t) in EC. rewrite EC.
  set (f2 := own_fit_last T mA k mp (own_fit_all T m1 (seq l m) f1)).
  set (f3 := if at_end s1 t then upd f2 k false else f2).
  assert (LB : length mB = length m1).
  { pose proof (fit_all_holds T bl em ax ay ae H2 _ _ _ _ EA F) as FA1. pose proof (fit_last_holds T bl em ax ay ae H2 _ _ _ _ _ EB FA1) as FB. rewrite <- LM1. symmetry. exact (Forall2_len _ _ _ FB). }
  assert (LCm : length mC = length m1).
  { destruct (at_end s1 t); [|injection EC as <-; exact LB]. unfold boundary in EC. destruct (nth_error mB k) as [c|]; [|discriminate].
    repeat (apply obind_ok in EC as (? & _ & EC)). injection EC as <-. now rewrite DataClustersProofs.upd_length. }
  assert (L2 : length f2 = length m1).
  { unfold f2. rewrite (proj1 (fit_last_flags _ _ _ _)), (proj1 (fit_all_flags _ _ _)). exact LF1. }
  assert (L3 : length f3 = length mC). { unfold f3. destruct (at_end s1 t); rewrite ?DataClustersProofs.upd_length; congruence. }
  assert (POS : forall i, In i (rev (tl (seq l m))) -> (1 <= i)%nat).
  { intros i J. apply in_rev in J. destruct m as [|m]; [destruct J|]. cbn [seq tl] in J. apply in_seq in J. lia. }
  assert (H3' : match dcl s1 with (lo, _) :: _ => lo = 0 -> hd true f3 = false | [] => True end).
  { destruct (dcl s1) as [|[l1 h1] cs] eqn:EC1; [exact Logic.I|]. intros Z0. unfold f3. destruct KEY as [[-> ->]|KEY].
    - unfold at_end. rewrite Z.eqb_refl. cbn [orb]. apply hd_upd0. apply nonempty_len. rewrite L2, <- LM1. cbn. lia.
    - specialize (KEY Z0). assert (F2 : hd true f2 = false) by (unfold f2; apply fit_last_flags, fit_all_flags, KEY). destruct (at_end s1 t); [now apply hd_upd_false|exact F2]. }
  assert (ED2 : m2 = mD). { destruct (seq l m); [congruence|]. destruct (DataClusters.combine_clusters _ _) as [sX [u|]]; congruence. }
  subst mD. split.
  - rewrite (combine_all_len _ _ _ _ _ ED L3 POS). symmetry. exact (Forall2_len _ _ _ (i_match _ _ _ _ _ _ _ _ _ _ I2)).
  - destruct (dcl s2) as [|[lo2 hi2] cs2] eqn:E2; [exact Logic.I|]. intros ->. apply combine_all_flags; [exact POS|].
    assert (C1 : DataClustersSpec.covered (dcl s1) 0).
    { assert (C2 : DataClustersSpec.covered (dcl s2) 0).
      { rewrite E2. exists 0, hi2. split; [now left|]. destruct (DataClustersProps.C01_clusters_well_formed _ _ _ _ _ _ H1 H3 A3 A4 (i_reach _ _ _ _ _ _ _ _ _ _ I2)) as ((V1 & _) & _).
        pose proof (V1 0%nat 0 hi2 ltac:(rewrite E2; reflexivity)). lia. }
      destruct m as [|m]; [cbn [seq] in E; injection E as <-; exact C2|]. cbn [Nat.eqb] in FA.
      destruct (DataClustersProps.C08_combine_adjacent s1 _ _ W FA) as (sX & CC & _ & CV & _); [discriminate|].
      change (match DataClusters.combine_clusters s1 [seq l (S m)] with (_, Err e) => Some (Err e) | (s', Ok _) => Some (Ok (s', m2)) end = Some (Ok (s2, m2))) in E.
      rewrite CC in E. injection E as <-. now apply CV. }
    pose proof (first_lo _ _ W C1) as FL. destruct (dcl s1) as [|[l1 h1] cs1]; [contradiction|]. now apply H3'.
Qed.
Lemma loop_copied mp : forall fuel s mcs fl u, inv T bl cres em ax ay ae yd s mcs -> copied s fl ->
  loop T bl em pf rec depth ax ay ae fuel mp s mcs = Some (Ok u) ->
  hd true (own_loop T bl em pf rec depth ax ay ae fuel mp s mcs fl) = false.
Proof.
  induction fuel as [|fuel IH]; intros s mcs fl u I C E; [discriminate|]. cbn [loop own_loop] in *.
  destruct (DataClusters.next (w_rnd w) s) as [s1 [[]|e]] eqn:N.
  - apply obind_ok in E as ([s2 m2] & EI & E). rewrite EI. destruct (step_copied _ _ _ _ _ _ _ I C N EI) as [I2 C2]. exact (IH _ _ _ _ I2 C2 E).
  - pose proof SANE as (H1 & H2 & H3 & H4 & H5 & H6). pose proof ARR as (A1 & A2 & A3 & A4).
    destruct (DataClustersProps.C02_next_stops_only_when_all_clustered _ _ _ _ _ _ _ _ H1 H3 A3 A4 (i_reach _ _ _ _ _ _ _ _ _ _ I) N) as (_ & _ & _ & _ & _ & ALL).
    destruct C as [_ C]. destruct (DataClustersProps.C01_clusters_well_formed _ _ _ _ _ _ H1 H3 A3 A4 (i_reach _ _ _ _ _ _ _ _ _ _ I)) as (W & _).
    assert (0 < length (adat ax))%nat by (destruct (adat ax); [contradiction|cbn; lia]).
    pose proof (first_lo _ _ W (ALL 0 ltac:(lia))) as FL. destruct (dcl s) as [|[l h] cs]; [contradiction|]. now apply C.
Qed.
End Call.

Lemma start_copied ax ay ae yd s mcs mp : sane T bl -> arrays_ok ax ay ae -> length yd = length (adat ax) ->
  (exists i, (i < length yd)%nat /\ nth 0 yd 0 < nth i yd 0) ->
  start T bl cres em pf ax ay ae yd = Ok (s, mcs, mp) -> copied s [true].
Proof.
  intros (H1 & H2 & H3 & H4 & H5 & H6) (A1 & A2 & A3 & A4) LD (i & Hi & HG). unfold start.
  destruct (DataClusters.construct (t_argsort T) (adat ax) yd cres) as [s0|] eqn:CS; cbn [bind]; [|discriminate].
  destruct (DataClusters.cut s0 0) as [sl|]; cbn [bind]; [|discriminate]. destruct (fresh _ _ _ _ _ _ _ _) as [c|]; cbn [bind]; [|discriminate].
  destruct (minpoints_of T em pf); cbn [bind]; [|discriminate]. intros E. injection E as <- <- <-.
  unfold DataClusters.construct in CS. destruct (negb _); [discriminate|]. destruct (cres <? 0); [discriminate|].
  destruct (Nat.eqb_spec (length (adat ax)) 0) as [C|_]; [apply length_zero_iff_nil in C; contradiction|].
  destruct (pyget (t_argsort T yd) (-1)) as [top|] eqn:PG; cbn [bind] in CS; [|discriminate]. injection CS as <-. split; [reflexivity|].
  cbn [DataClusters.clusters]. intros ->. exfalso. destruct (H3 yd) as [PM SO].
  assert (LO : length (t_argsort T yd) = length yd) by (rewrite (Permutation_length PM), map_length, seq_length; reflexivity).
  assert (NL : nth_error (t_argsort T yd) (length yd - 1) = Some 0).
  { unfold pyget in PG. rewrite LO in PG. change (-1 <? 0) with true in PG. cbv iota zeta in PG.
    destruct ((_ <? 0) || _) eqn:?; [discriminate|]. destruct (nth_error _ _) as [v|] eqn:NE; [|discriminate]. injection PG as ->. rewrite <- NE. f_equal. lia. }
  assert (IN : In (Z.of_nat i) (t_argsort T yd)).
  { apply (Permutation_in _ (Permutation_sym PM)). apply in_map, in_seq. lia. }
  apply In_nth_error in IN as (j & Hj). assert (J : (j < length yd)%nat) by (rewrite <- LO; apply nth_error_Some; congruence).
  destruct (Nat.eq_dec j (length yd - 1)) as [->|D]; [rewrite NL in Hj; injection Hj as Hj; assert (i = 0%nat) by lia; subst; lia|].
  pose proof (SO j (length yd - 1)%nat _ _ ltac:(lia) Hj NL) as LE. rewrite Nat2Z.id in LE. change (Z.to_nat 0) with 0%nat in LE. lia.
Qed.

(** ** C215 *)
(** If, without baseline and initial peaks, the first data point is not the highest one,
    extract_single leaves the user's baseline object as it was, whatever the fits do, and
    the model it returns has a baseline object of its own. *)
Theorem C215_users_baseline_is_left_alone :
  sane T bl ->
  forall x y e ip u r,
    DataClustersSpec.increasing x -> x <> [] -> length y = length x -> length e = length x ->
    (exists i, (i < length x)%nat /\ nth 0 (bare T bl x y ip) 0 < nth i (bare T bl x y ip) 0) ->
    own_extract T bl cres em pf x y e ip = Some (u, r) ->
    u = bl /\ forall c o, r = Ok (c, o) -> o = false.
Proof.
  intros SN x y e ip u r HI HN LY LE HT E.
  assert (LS : length (vsum w x ip) = length y) by (rewrite (vsum_len T bl) by exact SN; congruence).
  assert (AR : arrays_ok (mkArr 0 x) (mkArr 1 (vsub w y (vsum w x ip))) (mkArr 2 e)).
  { unfold arrays_ok. cbn [adat]. rewrite ExtractProps.vsub_len; auto. }
  assert (LB : length (bare T bl x y ip) = length x).
  { unfold bare. pose proof SN as (_ & _ & _ & _ & BL & _). rewrite !ExtractProps.vsub_len; rewrite ?ExtractProps.vsub_len, ?BL; auto; congruence. }
  unfold own_extract, own_run in E.
  destruct (start T bl cres em pf _ _ _ (bare T bl x y ip)) as [[[s mcs] mp]|x0] eqn:ES; [|injection E as <- <-; split; [reflexivity|discriminate]].
  assert (CP : copied s [true]) by (eapply start_copied; [exact SN|exact AR|exact LB|rewrite LB; exact HT|exact ES]).
  pose proof SN as (H1 & H2 & H3 & H4 & H5 & H6). pose proof AR as (A1 & A2 & A3 & A4).
  pose proof (start_inv T bl cres em pf _ _ _ H1 H3 H5 A1 A2 A3 A4 _ _ _ _ ES) as IV.
  destruct (loop T bl em pf _ 1 _ _ _ _ mp s mcs) as [[v|x0]|] eqn:EL; [|injection E as <- <-; split; [reflexivity|discriminate]|discriminate].
  pose proof (loop_copied _ _ _ _ _ SN AR _ _ _ _ _ _ _ IV CP EL) as HF.
  unfold own_finish in E. rewrite HF in E. cbn [andb] in E.
  destruct (snd v) as [|c m]; [injection E as <- <-; split; [reflexivity|discriminate]|].
  destruct (addexternalpeaks T c ip) as [c1|]; [|injection E as <- <-; split; [reflexivity|discriminate]].
  destruct (prune _ _ _ _ c1) as [[m1 [v1|]]|]; [|injection E as <- <-; split; [reflexivity|discriminate]|discriminate].
  injection E as <- <-. split; [reflexivity|]. intros c' o. destruct (fr_out _); [|discriminate]. intros EO. injection EO as _ <-. reflexivity.
Qed.

(** The outcome is the one of Extract.v, about which C49, C50, C69, C201 and C206 speak. *)
Theorem C215_same_extraction :
  forall x y e ip,
    extract T bl cres em pf 4 1 x y e ip =
    match own_extract T bl cres em pf x y e ip with
    | None => None
    | Some (_, Ok (c, _)) => Some (Ok c)
    | Some (_, Err x) => Some (Err x)
    end.
Proof.
  intros x y e ip. change (extract T bl cres em pf 4 1 x y e ip) with
    (run T bl cres em pf (fun rx ry re => match rx with [] => Some (Err IndexError) | _ => extract T bl cres em pf 3 2 rx ry (default_edy T ry re) [] end)
       1 (mkArr 0 x) (mkArr 1 (vsub w y (vsum w x ip))) (mkArr 2 e) (bare T bl x y ip) ip).
  unfold own_extract, own_run, run. generalize (fun rx ry re : list Z => match rx with [] => Some (Err IndexError) | _ => extract T bl cres em pf 3 2 rx ry (default_edy T ry re) [] end). intros rec.
  destruct (start _ _ _ _ _ _ _ _ _) as [[[s mcs] mp]|]; [|reflexivity]. cbn [lift obind].
  destruct (loop _ _ _ _ _ _ _ _ _ _ _ _ _) as [[u|]|]; [|reflexivity|reflexivity]. cbn [obind].
  unfold own_finish, finish. destruct (snd u) as [|c m]; [reflexivity|]. destruct (addexternalpeaks T c ip) as [c1|]; [|reflexivity]. cbn [lift obind].
  destruct (prune _ _ _ _ _) as [[m1 [v1|]]|]; [|reflexivity|reflexivity]. cbn [Nat.eqb]. destruct (fr_out _); reflexivity.
Qed.
End Props.

(** *** The whole of PDFPeakExtraction.extract *)
Section Pdf.
Context {P B Q : Type}.
Variable T : xtools P B Q.
Variable enc : R -> Z.
Variable owner : P -> nat.
Variable static : P -> bool.
Variable set_owner : P -> nat -> P.
Variable ripples : nat -> bool.
Variable tfunc : nat -> nat.
Notation pdf := (@pdf P B).
Notation pdf_extract := (pdf_extract T enc owner static set_owner ripples tfunc).
Notation owned := (owned T enc owner static set_owner ripples tfunc).
(** On the grid of the initial extraction, some point lies higher than the first, the
    baseline and the initial peaks taken off. *)
Definition first_not_highest (s : pdf) : Prop :=
  forall r y e, extract_grid (p_data s) = Ok (r, y, e) ->
    exists i, (i < length r)%nat /\
      nth 0 (bare T (p_bl s) (map enc r) (map enc y) (p_ip s)) 0 < nth i (bare T (p_bl s) (map enc r) (map enc y) (p_ip s)) 0.
Theorem C215_extract_leaves_baseline_alone :
  forall fuel s s' o, sane T (p_bl s) -> usable (p_data s) -> (0 <= d_qmax (p_data s))%R -> (0 < d_supersample (p_data s))%R -> resolves enc (p_data s) ->
    first_not_highest s -> pdf_extract fuel s = (s', o) ->
    p_bl s' = p_bl s /\ snd (owned fuel (clearcalc s)) = false.
Proof.
  intros fuel s s' o SN U QP SP RV FN E.
  assert (G : owned fuel (clearcalc s) = (p_bl s, false)).
  { unfold PdfExtract.owned. change (p_data (clearcalc s)) with (p_data s). change (p_bl (clearcalc s)) with (p_bl s). change (p_ip (clearcalc s)) with (p_ip s).
    change (p_cres (clearcalc s)) with (p_cres s). change (p_em (clearcalc s)) with (p_em s). change (p_pf (clearcalc s)) with (p_pf s).
    destruct (dr_raw (p_data s)) as [raw|]; [|reflexivity]. destruct (extract_grid (p_data s)) as [[[r1 y1] e1]|] eqn:EG; [|reflexivity].
    destruct (C115_extraction_grid _ U QP SP) as (r & y & e & EG' & SO & NE & LY & LE & _). rewrite EG in EG'. injection EG' as <- <- <-.
    destruct (own_extract _ _ _ _ _ _ _ _ _) as [[u rr]|] eqn:EO; [|reflexivity].
    destruct (C215_users_baseline_is_left_alone T (p_bl s) (p_cres s) (p_em s) (p_pf s) SN (map enc r1) (map enc y1) (map enc e1) (p_ip s) u rr) as [-> HO]; auto.
    - exact (enc_increasing enc r1 SO (RV _ _ _ EG)).
    - destruct r1; [contradiction|discriminate].
    - now rewrite !map_length.
    - now rewrite !map_length.
    - rewrite map_length. exact (FN _ _ _ EG).
    - destruct rr as [[c oo]|]; [|reflexivity]. rewrite (HO c oo eq_refl). cbn [andb]. destruct (if Rltb 0 (d_qmax (p_data s)) then _ else _) as [[c1|]|]; reflexivity. }
  rewrite G. split; [|reflexivity]. unfold PdfExtract.pdf_extract in E. rewrite G in E. destruct (model_of _ _ _ _ _ _ _ _ _) as [[c|]|]; injection E as <- <-; reflexivity.
Qed.
End Pdf.

(** ** Concrete cases, with the optimiser of ExtractBaseProps.v that lifts a free baseline by one *)
Definition own_shown (r : option (Z * result (cluster xpeak Z * bool))) : option (Z * option (option Z * bool)) :=
  match r with
  | Some (u, Ok (c, o)) => Some (u, Some (c_base c, o))
  | Some (u, Err _) => Some (u, None)
  | None => None
  end.
Definition hx : list Z := [0; 1; 2].
Definition he (u : Z) : list Z := [u; u; u].
Definition hdata (y : list Z) (u : Z) : data := mkData (map IZR hx) (map IZR y) None (map IZR (he u)) 0 2 0 3 false false.
Definition hpdf (y : list Z) (u b : Z) : @pdf xpeak Z := mkPdf (hdata y u) 0 [7%nat] 0 b [] None None.
Definition hextract (s : @pdf xpeak Z) := PdfExtract.pdf_extract (btools 1) Int_part (fun _ => 7%nat) (fun _ => false) (fun p _ => p) (fun _ => false) S 5 s.
Lemma husable y u : length y = 3%nat -> 0 <= u -> usable (hdata y u).
Proof.
  intros L U. split; cbn [hdata d_x d_y d_edy d_lo d_hi hx he].
  - repeat constructor; lra.
  - rewrite !map_length. exact L.
  - reflexivity.
  - apply IZR_le in U. intros e [<-|[<-|[<-|[]]]]; exact U.
  - exists 0%R, 1%R. cbn [map In]. split; [now left|]. split; [right; now left|]. lra.
Qed.
Lemma hgrid y u : length y = 3%nat -> 0 <= u -> extract_grid (hdata y u) = Ok (map IZR hx, map IZR y, map IZR (he u)).
Proof.
  intros L U. destruct (range_ok _ (husable y u L U)) as (a & r & yy & e & EI & EF & F1 & F2 & F3 & NE & LY & LE).
  assert (ER : r = map IZR hx).
  { rewrite EF. cbn [hdata d_x d_lo d_hi hx map filter]. unfold VarsProps.in_range.
    repeat match goal with |- context [Rleb ?u ?v] => let H := fresh in assert (H : Rleb u v = true) by (apply EvaluatorsProps.Rleb_spec; lra); rewrite H; clear H end. reflexivity. }
  rewrite ER in *. clear EF.
  assert (A0 : a = 0%nat).
  { specialize (F1 0%nat 0%R eq_refl). cbn [hdata d_x hx map] in F1. rewrite Nat.add_0_r in F1. destruct a as [|[|[|a]]]; cbn in F1; [reflexivity|injection F1; intros; lra..|destruct a; discriminate]. }
  assert (SAME : forall g l : list R, from_index a g l -> length g = 3%nat -> length l = 3%nat -> g = l).
  { subst a. intros g l F L1 L2. apply TracerProps.nth_ext_list. intros i. destruct (nth_error g i) as [v|] eqn:E; [symmetry; apply (F i v E)|].
    apply nth_error_None in E. symmetry. apply nth_error_None. lia. }
  assert (LR : length (map IZR hx) = 3%nat) by reflexivity.
  apply SAME in F2; [|congruence|cbn [hdata d_y]; now rewrite map_length]. apply SAME in F3; [|congruence|reflexivity]. subst yy e.
  unfold extract_grid. rewrite EI. destruct (raw_ok _ (husable y u L U)) as (x0 & xn & _ & _ & ERW & _). rewrite ERW. cbn [bind hdata d_qmax]. destruct (Req_EM_T 0 0) as [_|C]; [reflexivity|contradiction].
Qed.
Lemma hresolves y u : length y = 3%nat -> 0 <= u -> resolves Int_part (hdata y u).
Proof.
  intros L U r yy e E a b A C LT. rewrite (hgrid y u L U) in E. injection E as E _ _. rewrite <- E in A, C. clear E. change (In a (map IZR hx)) in A. change (In b (map IZR hx)) in C.
  apply in_map_iff in A as (i & <- & _). apply in_map_iff in C as (j & <- & _). rewrite !int_part_IZR. now apply lt_IZR.
Qed.
Lemma bsane n b : sane (btools n) b.
Proof.
  split; [split; intros; cbn [w_rnd t_w btools bworld]; lia|]. split; [exact isort_ok|]. split; [exact DataClustersExamples.isort_ok|].
  split; [apply Z.eqb_refl|]. split; intros; apply map_length.
Qed.
(** extract() on these data, as a computation on integers *)
Definition hmodel (y : list Z) (u b : Z) : option (result (cluster xpeak Z)) :=
  odo c <- extract (btools 1) b 0 0 [7%nat] 4 1 hx y (he u) [];
  let f := fit (bworld 1) c false 0 true true in match fr_out f with Err e => Some (Err e) | Ok _ => Some (Ok (fr_c f)) end.
Definition howned (y : list Z) (u b : Z) : Z * bool :=
  match own_extract (btools 1) b 0 0 [7%nat] hx y (he u) [] with
  | None => (b, false)
  | Some (v, Err _) => (v, false)
  | Some (v, Ok (c, o)) =>
    (if o then match fr_base (fit (bworld 1) c false 0 true true) with Some b => b | None => v end else v, o && keeps (btools 1) c false true true)
  end.
Lemma howned_eq y u b : length y = 3%nat -> 0 <= u ->
  PdfExtract.owned (btools 1) Int_part (fun _ => 7%nat) (fun _ => false) (fun p _ => p) (fun _ => false) S 5 (clearcalc (hpdf y u b)) = howned y u b.
Proof.
  intros L U. destruct (raw_ok _ (husable y u L U)) as (x0 & xn & _ & _ & ER & _).
  unfold PdfExtract.owned. change (p_data (clearcalc (hpdf y u b))) with (hdata y u). rewrite ER, (hgrid y u L U), !int_parts. change (d_qmax (hdata y u)) with 0%R. rewrite lt00.
  change (p_bl (clearcalc (hpdf y u b))) with b. unfold howned. change (p_cres (clearcalc (hpdf y u b))) with 0. change (p_em (clearcalc (hpdf y u b))) with 0%nat.
  change (p_pf (clearcalc (hpdf y u b))) with [7%nat]. change (p_ip (clearcalc (hpdf y u b))) with (@nil xpeak).
  destruct (own_extract _ _ _ _ _ _ _ _ _) as [[v [[c o]|]]|]; [|reflexivity|reflexivity]. rewrite andb_true_r. reflexivity.
Qed.
Lemma hextract_eq y u b : length y = 3%nat -> 0 <= u -> hextract (hpdf y u b) =
  match hmodel y u b with
  | None => (clearcalc (hpdf y u b), None)
  | Some (Err e) => (with_baseline (clearcalc (hpdf y u b)) (fst (howned y u b)), Some (Err e))
  | Some (Ok c) => (with_result (with_baseline (clearcalc (hpdf y u b)) (fst (howned y u b))) (Some c) (Some "extract"%string), Some (Ok tt))
  end.
Proof.
  intros L U. destruct (raw_ok _ (husable y u L U)) as (x0 & xn & _ & _ & ER & _).
  unfold hextract, PdfExtract.pdf_extract. cbv zeta. rewrite (howned_eq y u b L U).
  assert (EM : PdfExtract.model_of (btools 1) Int_part (fun _ => 7%nat) (fun _ => false) (fun p _ => p) (fun _ => false) S 5 (clearcalc (hpdf y u b)) = hmodel y u b).
  { unfold PdfExtract.model_of. change (p_data (clearcalc (hpdf y u b))) with (hdata y u). rewrite ER, (hgrid y u L U). cbn [lift obind]. rewrite !int_parts. change (d_qmax (hdata y u)) with 0%R. rewrite lt00.
    unfold hmodel. change (p_bl (clearcalc (hpdf y u b))) with b. change (p_cres (clearcalc (hpdf y u b))) with 0. change (p_em (clearcalc (hpdf y u b))) with 0%nat.
    change (p_pf (clearcalc (hpdf y u b))) with [7%nat]. change (p_ip (clearcalc (hpdf y u b))) with (@nil xpeak).
    destruct (extract _ _ _ _ _ _ _ _ _ _ _) as [[c|]|]; reflexivity. }
  rewrite EM. reflexivity.
Qed.
Ltac heval y u b :=
  rewrite (hextract_eq y u b eq_refl ltac:(lia));
  match goal with |- context [hmodel y u b] => let v := eval vm_compute in (hmodel y u b) in change (hmodel y u b) with v end;
  match goal with |- context [howned y u b] => let v := eval vm_compute in (howned y u b) in change (howned y u b) with v | _ => idtac end.
(** The hypotheses are met: the second of three points is the highest.  The optimiser changes
    the baseline of the result, the user's stays. *)
Example C215_nonvacuous :
  sane (btools 1) 0 /\ usable (hdata [1; 8; 5] 1) /\ resolves Int_part (hdata [1; 8; 5] 1) /\ first_not_highest (btools 1) Int_part (hpdf [1; 8; 5] 1 0) /\
  exists s' c, hextract (hpdf [1; 8; 5] 1 0) = (s', Some (Ok tt)) /\ p_bl s' = 0 /\ p_extracted s' = Some c /\ c_base c = Some 2.
Proof.
  split; [apply bsane|]. split; [apply husable; [reflexivity|lia]|]. split; [apply hresolves; [reflexivity|lia]|]. split.
  - intros r y e E. change (p_data (hpdf [1; 8; 5] 1 0)) with (hdata [1; 8; 5] 1) in E. rewrite (hgrid [1; 8; 5] 1 eq_refl ltac:(lia)) in E.
    assert (ER : r = map IZR hx) by congruence. assert (EY : y = map IZR [1; 8; 5]) by congruence. clear E. rewrite ER, EY, !int_parts. exists 1%nat. split; [rewrite map_length; cbn; lia|]. vm_compute. reflexivity.
  - heval [1; 8; 5] 1 0. eexists _, _. split; [reflexivity|]. split; [reflexivity|]. split; reflexivity.
Qed.

(** ** C216 *)
(** Where the first point is the highest this may fail: extract() changes the baseline object
    the user has set, and the result holds that very object.  The same call again starts from
    the changed baseline and gives another result. *)
Theorem C216_baseline_setting_kept_refuted :
  exists (s s1 s2 : @pdf xpeak Z) c1 c2,
    sane (btools 1) (p_bl s) /\ usable (p_data s) /\ resolves Int_part (p_data s) /\
    hextract s = (s1, Some (Ok tt)) /\ p_bl s = 0 /\ p_bl s1 = 2 /\ p_extracted s1 = Some c1 /\ c_base c1 = Some 2 /\
    snd (PdfExtract.owned (btools 1) Int_part (fun _ => 7%nat) (fun _ => false) (fun p _ => p) (fun _ => false) S 5 (clearcalc s)) = true /\
    hextract s1 = (s2, Some (Ok tt)) /\ p_bl s2 = 4 /\ p_extracted s2 = Some c2 /\ c_base c2 = Some 4.
Proof.
  exists (hpdf [20; 4; 12] 1 0).
  assert (E1 : exists s1 c1, hextract (hpdf [20; 4; 12] 1 0) = (s1, Some (Ok tt)) /\ clearcalc s1 = clearcalc (hpdf [20; 4; 12] 1 2) /\ p_bl s1 = 2 /\ p_extracted s1 = Some c1 /\ c_base c1 = Some 2).
  { heval [20; 4; 12] 1 0. eexists _, _. split; [reflexivity|]. split; [reflexivity|]. split; [reflexivity|]. split; reflexivity. }
  assert (E2 : exists s2 c2, hextract (hpdf [20; 4; 12] 1 2) = (s2, Some (Ok tt)) /\ p_bl s2 = 4 /\ p_extracted s2 = Some c2 /\ c_base c2 = Some 4).
  { heval [20; 4; 12] 1 2. eexists _, _. split; [reflexivity|]. split; [reflexivity|]. split; reflexivity. }
  destruct E1 as (s1 & c1 & A1 & A2 & A3 & A4 & A5), E2 as (s2 & c2 & B1 & B2 & B3 & B4). exists s1, s2, c1, c2.
  split; [apply bsane|]. split; [apply husable; [reflexivity|lia]|]. split; [apply hresolves; [reflexivity|lia]|]. split; [exact A1|]. split; [reflexivity|]. split; [exact A3|]. split; [exact A4|]. split; [exact A5|].
  split; [rewrite howned_eq by (reflexivity || lia); vm_compute; reflexivity|].
  split; [|auto]. rewrite <- B1. unfold hextract, PdfExtract.pdf_extract. now rewrite A2.
Qed.

(** PeakStability.run with this extraction: the first result was extracted with the baseline
    at 2, but after the second extraction it shows 4; and the result of the second depends
    on the first having been made. *)
Definition hdo (y : list Z) (p : @Stability.ppe xpeak Z unit) (b : option Z) : option Z * result (list xpeak * option (option Z) * cluster xpeak Z) :=
  let s := hpdf y (hd 0 (Stability.p_edy p)) (match b with Some v => v | None => 0 end) in
  let '(s', o) := hextract s in
  (Some (p_bl s'),
   match o, p_extracted s' with
   | Some (Ok _), Some c =>
     Ok (c_model c, (if snd (PdfExtract.owned (btools 1) Int_part (fun _ => 7%nat) (fun _ => false) (fun p _ => p) (fun _ => false) S 5 (clearcalc s)) then None else Some (c_base c)), c)
   | Some (Err e), _ => Err e
   | _, _ => Err AttributeError
   end).
Definition hstab : @Stability.stab xpeak Z nat unit := Stability.mkStab [] [Some 0] [] (Stability.mkPpe hx [] None 0 [7%nat] 0 tt) None.
Definition hrun (y : list Z) := Stability.run (hdo y) (fun c => Ok (length (r_cluster c))).

Lemma hdo_eq e b own : (0 <=? e) = true -> (exists c, hmodel [20; 4; 12] e b = Some (Ok c) /\ howned [20; 4; 12] e b = (fst own, true) /\ snd own = c) ->
  forall p, Stability.p_edy p = repeat e 3 -> hdo [20; 4; 12] p (Some b) = (Some (fst own), Ok (c_model (snd own), None, snd own)).
Proof.
  intros HE (c & HM & HO & HC) p EP. apply Z.leb_le in HE. unfold hdo. rewrite EP. cbn [repeat hd]. rewrite (hextract_eq [20; 4; 12] e b eq_refl HE), (howned_eq [20; 4; 12] e b eq_refl HE), HM, HO. cbn [fst snd p_extracted with_result p_bl with_baseline].
  now rewrite HC.
Qed.
Theorem C216_stored_results_kept_refuted :
  exists s1 s2 m c1 c2,
    hrun [20; 4; 12] hstab [1] = (s1, Ok tt) /\ hrun [20; 4; 12] hstab [1; 1] = (s2, Ok tt) /\
    (* alone, the extraction ends with the baseline at 2 *)
    StabilityProps.stored s1 0 = Some (1, Some m, Some (Some 2), 3%nat) /\
    StabilityProps.current_cluster s1 = Some c1 /\ c_base c1 = Some 2 /\
    (* followed by another one, it shows the baseline of that, and so does the second *)
    StabilityProps.stored s2 0 = Some (1, Some m, Some (Some 4), 3%nat) /\
    StabilityProps.stored s2 1 = Some (1, Some m, Some (Some 4), 3%nat) /\
    StabilityProps.current_cluster s2 = Some c2 /\ c_base c2 = Some 4.
Proof.
  pose (m := [(Some 0, 10, true); (Some 0, 5, true); (Some 2, 6, true)] : list xpeak).
  pose (c := fun b => mkC m (Some b) (mkArr 0 hx) (mkArr 1 [20; 4; 12]) (mkArr 2 [1; 1; 1]) 0 3 false 3 0 [7%nat] : cluster xpeak Z).
  assert (E0 : forall p, Stability.p_edy p = repeat 1 3 -> hdo [20; 4; 12] p (Some 0) = (Some 2, Ok (m, None, c 2))).
  { intros p EP. rewrite (hdo_eq 1 0 (2, c 2)); [reflexivity|reflexivity| |exact EP]. exists (c 2). split; [vm_compute; reflexivity|]. split; [vm_compute; reflexivity|reflexivity]. }
  assert (E2 : forall p, Stability.p_edy p = repeat 1 3 -> hdo [20; 4; 12] p (Some 2) = (Some 4, Ok (m, None, c 4))).
  { intros p EP. rewrite (hdo_eq 1 2 (4, c 4)); [reflexivity|reflexivity| |exact EP]. exists (c 4). split; [vm_compute; reflexivity|]. split; [vm_compute; reflexivity|reflexivity]. }
  assert (R1 : exists p1, Stability.p_edy p1 = repeat 1 3 /\ Stability.p_x p1 = hx /\ Stability.p_base p1 = 0%nat /\
    Stability.run_one (hdo [20; 4; 12]) (fun c => Ok (length (r_cluster c))) (Stability.mkStab [] [Some 0] [] (Stability.s_ppe hstab) None) 1 =
      (Stability.mkStab [m] [Some 2] [Stability.mkRes 1 0 0 3%nat] p1 None, Ok tt) /\ Stability.p_ext p1 = Some (Stability.mkEx 0 0 (c 2))).
  { unfold Stability.run_one. cbn [Stability.s_bases Stability.s_ppe hstab Stability.p_base Stability.set_edy Stability.set_ext Stability.p_x nth_error].
    rewrite E0 by reflexivity. eexists. split; [|split; [|split; [|split; [reflexivity|]]]]; reflexivity. }
  destruct R1 as ([x1 ed1 ex1 em1 pf1 ba1 re1] & P1 & P2 & P3 & R1 & P4). cbn [Stability.p_edy Stability.p_x Stability.p_base Stability.p_ext] in P1, P2, P3, P4. subst ed1 x1 ba1 ex1. set (p1 := Stability.mkPpe hx (repeat 1 3) _ em1 pf1 0%nat re1) in *.
  assert (R2 : exists p2,
    Stability.run_one (hdo [20; 4; 12]) (fun c => Ok (length (r_cluster c))) (Stability.mkStab [m] [Some 2] [Stability.mkRes 1 0 0 3%nat] p1 None) 1 =
      (Stability.mkStab [m; m] [Some 4] [Stability.mkRes 1 0 0 3%nat; Stability.mkRes 1 1 0 3%nat] p2 None, Ok tt) /\ Stability.p_ext p2 = Some (Stability.mkEx 1 0 (c 4))).
  { unfold p1, Stability.run_one. cbn [Stability.s_bases Stability.s_ppe Stability.p_base Stability.set_edy Stability.set_ext Stability.p_x nth_error].
    rewrite E2 by reflexivity. eexists. split; reflexivity. }
  destruct R2 as (p2 & R2 & P5).
  exists (Stability.mkStab [m] [Some 2] [Stability.mkRes 1 0 0 3%nat] p1 None), (Stability.mkStab [m; m] [Some 4] [Stability.mkRes 1 0 0 3%nat; Stability.mkRes 1 1 0 3%nat] p2 None), m, (c 2), (c 4).
  unfold hrun, Stability.run. cbn [Stability.run_all]. change (Stability.mkStab (Stability.s_models hstab) (Stability.s_bases hstab) [] (Stability.s_ppe hstab) (Stability.s_current hstab)) with (Stability.mkStab (D:=nat) (@nil (list xpeak)) [Some 0] [] (Stability.s_ppe hstab) None).
  rewrite R1. cbn [Stability.run_all]. rewrite R2. split; [reflexivity|]. split; [reflexivity|]. split; [reflexivity|].
  unfold StabilityProps.current_cluster, Stability.ext_cluster. cbn [Stability.s_ppe Stability.s_models Stability.s_bases]. rewrite P5. unfold p1. cbn [Stability.p_ext Stability.e_model Stability.e_base nth_error].
  split; [reflexivity|]. split; [reflexivity|]. split; [reflexivity|]. split; [reflexivity|]. split; reflexivity.
Qed.
Print Assumptions C215_users_baseline_is_left_alone.
Print Assumptions C215_same_extraction.
Print Assumptions C215_extract_leaves_baseline_alone.
Print Assumptions C216_baseline_setting_kept_refuted.
Print Assumptions C216_stored_results_kept_refuted.

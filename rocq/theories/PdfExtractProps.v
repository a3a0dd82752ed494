(** Properties C114-C121: PDFPeakExtraction.extract() and fit() as a whole. *)
From Coq Require Import Reals Lra String Permutation Sorted.
From Verif Require Import Prelude Evaluators EvaluatorsProps ModelCluster ModelClusterProofs ModelClusterProps Prune PruneProofs PruneProps AugmentProps Nyquist NyquistProps Extract ExtractProps PdfExtract.
From Verif Require DataClustersSpec DataClustersExamples Vars VarsProps Resample ResampleProps TracerProps.
Open Scope R_scope.

(** ** Specification: usable data *)
(** Strictly increasing x with as many y and non-negative uncertainties; the range contains
    at least two points. *)
Record usable (d : data) : Prop := {
  u_sorted : StronglySorted Rlt (d_x d);
  u_y : length (d_y d) = length (d_x d);
  u_e : length (d_edy d) = length (d_x d);
  u_pos : forall e, In e (d_edy d) -> 0 <= e;
  u_range : exists u v, In u (d_x d) /\ In v (d_x d) /\ u < v /\ d_lo d <= u /\ v <= d_hi d }.
(** Consecutive points of [l] are at most [h] apart. *)
Definition steps_at_most (h : R) (l : list R) : Prop :=
  forall i a b, nth_error l i = Some a -> nth_error l (S i) = Some b -> b - a <= h.
(** [g] is the part of [l] that starts at index [a]. *)
Definition from_index (a : nat) (g l : list R) : Prop := forall i v, nth_error g i = Some v -> nth_error l (a + i) = Some v.

Lemma sorted_nth (l : list R) : StronglySorted Rlt l <-> forall i j a b, (i < j)%nat -> nth_error l i = Some a -> nth_error l j = Some b -> a < b.
Proof.
  split.
  - intros H. induction H as [|x l SS IH F]; intros i j a b L A C; [destruct i; discriminate|]. destruct i as [|i], j as [|j]; try lia; cbn [nth_error] in *.
    + injection A as ->. rewrite Forall_forall in F. apply F. eapply nth_error_In, C.
    + eapply (IH i j); [lia|eassumption|eassumption].
  - induction l as [|x l IH]; intros H; [constructor|]. constructor.
    + apply IH. intros i j a b L A C. apply (H (S i) (S j)); [lia|exact A|exact C].
    + apply Forall_forall. intros y Hy. apply In_nth_error in Hy as (j & Hj). apply (H 0%nat (S j)); [lia|reflexivity|exact Hj].
Qed.
Lemma slice_nth {A} (l : list A) a b i : nth_error (Vars.take_slice l (a, Z.of_nat b)) i = if (i <? b - a)%nat then nth_error l (a + i) else None.
Proof. unfold Vars.take_slice. cbn [fst snd]. rewrite Nat2Z.id, nth_error_firstn, nth_error_skipn. reflexivity. Qed.
Lemma slice_len {A} (l : list A) a b : (b <= length l)%nat -> length (Vars.take_slice l (a, Z.of_nat b)) = (b - a)%nat.
Proof. intros H. unfold Vars.take_slice. cbn [fst snd]. rewrite Nat2Z.id, firstn_length, skipn_length. lia. Qed.
Lemma sorted_le (l : list R) : StronglySorted Rlt l -> StronglySorted Rle l.
Proof. induction 1 as [|x l SS IH F]; constructor; [exact IH|]. eapply Forall_impl; [|exact F]. cbn beta. intros; lra. Qed.
Lemma last_nth (l : list R) d : l <> [] -> nth_error l (length l - 1) = Some (last l d).
Proof.
  induction l as [|a l IH]; intros H; [contradiction|]. destruct l as [|b l]; [reflexivity|]. specialize (IH ltac:(discriminate)).
  cbn [length last] in *. replace (S (S (length l)) - 1)%nat with (S (length l)) by lia. cbn [nth_error]. rewrite <- IH. f_equal. lia.
Qed.

Lemma usable_ends d : usable d -> exists x0 xn, (2 <= length (d_x d))%nat /\ nth_error (d_x d) 0 = Some x0 /\ nth_error (d_x d) (length (d_x d) - 1) = Some xn /\
  x0 < xn /\ (forall v, In v (d_x d) -> x0 <= v <= xn) /\ Rmax x0 (d_lo d) < Rmin xn (d_hi d).
Proof.
  intros [SS LY LE _ (u & v & Iu & Iv & UV & LO & HI)]. apply In_nth_error in Iu as (i & Ei). apply In_nth_error in Iv as (j & Ej).
  assert (Hi : (i < length (d_x d))%nat) by (apply nth_error_Some; congruence). assert (Hj : (j < length (d_x d))%nat) by (apply nth_error_Some; congruence).
  pose proof (proj1 (sorted_nth _) SS) as ST.
  assert (IJ : i <> j) by (intros ->; rewrite Ei in Ej; injection Ej as ->; lra).
  destruct (nth_error (d_x d) 0) as [x0|] eqn:E0; [|apply nth_error_None in E0; lia].
  destruct (nth_error (d_x d) (length (d_x d) - 1)) as [xn|] eqn:En; [|apply nth_error_None in En; lia].
  exists x0, xn. split; [lia|]. split; [reflexivity|]. split; [reflexivity|].
  assert (ALL : forall k t, nth_error (d_x d) k = Some t -> x0 <= t <= xn).
  { intros k t Ek. assert (Hk : (k < length (d_x d))%nat) by (apply nth_error_Some; congruence). split.
    - destruct k as [|k]; [rewrite E0 in Ek; injection Ek as ->; lra|]. left. apply (ST 0%nat (S k)); [lia|exact E0|exact Ek].
    - destruct (Nat.eq_dec k (length (d_x d) - 1)) as [->|N]; [rewrite En in Ek; injection Ek as ->; lra|]. left. apply (ST k (length (d_x d) - 1)%nat); [lia|exact Ek|exact En]. }
  pose proof (ALL _ _ Ei) as [A1 A2]. pose proof (ALL _ _ Ej) as [A3 A4]. split; [lra|]. split.
  - intros t Ht. apply In_nth_error in Ht as (k & Ek). exact (ALL _ _ Ek).
  - apply Rle_lt_trans with u; [apply Rmax_lub; lra|]. apply Rlt_le_trans with v; [exact UV|]. apply Rmin_glb; lra.
Qed.
Lemma raw_ok d : usable d -> exists x0 xn, nth_error (d_x d) 0 = Some x0 /\ nth_error (d_x d) (length (d_x d) - 1) = Some xn /\
  dr_raw d = Ok ((xn - x0) / (INR (length (d_x d)) - 1)) /\ 0 < (xn - x0) / (INR (length (d_x d)) - 1).
Proof.
  intros U. destruct (usable_ends d U) as (x0 & xn & L2 & E0 & En & LT & _). exists x0, xn. split; [exact E0|]. split; [exact En|]. unfold dr_raw.
  change (pyget (d_x d) 0) with (pyget (d_x d) (Z.of_nat 0)). rewrite (ResampleProps.pyget_ok _ _ _ E0), (ResampleProps.pyget_last _ _ En). cbn [bind].
  destruct (Nat.eqb_spec (length (d_x d)) 1); [lia|]. split; [reflexivity|]. apply le_INR in L2. cbn [INR] in L2. apply Rdiv_lt_0_compat; lra.
Qed.
Lemma range_ok d : usable d -> exists a r y e, in_range d = Ok (r, y, e) /\ r = filter (VarsProps.in_range (d_lo d) (d_hi d)) (d_x d) /\
  from_index a r (d_x d) /\ from_index a y (d_y d) /\ from_index a e (d_edy d) /\ r <> [] /\ length y = length r /\ length e = length r.
Proof.
  intros U. destruct (usable_ends d U) as (x0 & xn & L2 & E0 & En & LT & ALL & RG). destruct U as [SS LY LE _ (u & v & Iu & Iv & UV & LO & HI)].
  pose proof (ALL u Iu) as Hu. pose proof (ALL v Iv) as Hv.
  destruct (d_x d) as [|x0' rest] eqn:EX; [discriminate|]. injection E0 as ->. 
  assert (EL : last (x0 :: rest) x0 = xn). { pose proof (last_nth (x0 :: rest) x0 ltac:(discriminate)) as H. rewrite En in H. injection H as H. exact (eq_sym H). }
  destruct (VarsProps.C46_exactly_the_points_in_range x0 rest (d_lo d) (d_hi d) (sorted_le _ SS)) as (a & b & EG & ET & SP); [cbv zeta in *; unfold Rle in *; rewrite EL; lra|lra|].
  unfold in_range. rewrite EX, EG. cbn [bind]. exists a. eexists _, _, _. split; [reflexivity|]. split; [exact ET|].
  assert (FI : forall l : list R, from_index a (Vars.take_slice l (a, Z.of_nat b)) l).
  { intros l i t. rewrite slice_nth. destruct (i <? b - a)%nat; [auto|discriminate]. }
  split; [apply FI|]. split; [apply FI|]. split; [apply FI|]. 
  assert (NE : Vars.take_slice (x0 :: rest) (a, Z.of_nat b) <> []).
  { rewrite ET. intros C. assert (F : In u (filter (VarsProps.in_range (d_lo d) (d_hi d)) (x0 :: rest))).
    { apply filter_In. split; [exact Iu|]. unfold VarsProps.in_range. apply andb_true_iff. rewrite !Rleb_spec. lra. }
    rewrite C in F. destruct F. }
  split; [exact NE|]. assert (LEN : forall l l' : list R, length l = length l' -> length (Vars.take_slice l (a, Z.of_nat b)) = length (Vars.take_slice l' (a, Z.of_nat b))).
  { intros l l' H. unfold Vars.take_slice. rewrite !firstn_length, !skipn_length. lia. }
  split; apply LEN; assumption.
Qed.
Lemma from_sorted a g l : StronglySorted Rlt l -> from_index a g l -> StronglySorted Rlt g.
Proof.
  intros SS F. apply sorted_nth. intros i j u v L Eu Ev. apply (proj1 (sorted_nth l) SS (a + i)%nat (a + j)%nat); [lia|now apply F|now apply F].
Qed.
Lemma resampled_ok d dr : usable d -> 0 < dr -> exists r y e, resampled d dr = Ok (r, y, e) /\ r <> [] /\ length y = length r /\ length e = length r /\
  (forall i t, nth_error r i = Some t -> d_lo d <= t <= d_hi d /\ exists x0, nth_error (d_x d) 0 = Some x0 /\ t = Rmax x0 (d_lo d) + INR i * dr).
Proof.
  intros U D. destruct (usable_ends d U) as (x0 & xn & L2 & E0 & En & LT & ALL & RG). destruct U as [SS LY LE UP _].
  destruct (ResampleProps.C51_resampledata (d_x d) (d_y d) (d_dx d) (d_edy d) (d_lo d) (d_hi d) (d_qmax d) (d_nyquist d) (d_scale d) dr x0 xn 0) as (r & ry & rdx & re & E & A1 & A2 & A3 & _ & _ & A4 & _);
    try assumption.
  { intros e He. split; [lra|now apply UP]. }
  unfold resampled. rewrite E. cbn [bind]. exists r, ry, re. split; [reflexivity|]. split; [exact A1|]. split; [exact A2|]. split; [exact A3|].
  intros i t Et. destruct (A4 i t Et) as (B1 & B2 & B3). split; [exact B3|]. exists x0. split; [exact E0|exact B1].
Qed.

(** ** C115: the grid of the initial extraction *)
Theorem C115_extraction_grid :
  forall d, usable d -> 0 <= d_qmax d -> 0 < d_supersample d ->
    exists r y e, extract_grid d = Ok (r, y, e) /\
      StronglySorted Rlt r /\ r <> [] /\ length y = length r /\ length e = length r /\
      (forall t, In t r -> d_lo d <= t <= d_hi d) /\
      (* without qmax: exactly the data points in the range *)
      (d_qmax d = 0 -> r = filter (VarsProps.in_range (d_lo d) (d_hi d)) (d_x d) /\
         exists a, from_index a r (d_x d) /\ from_index a y (d_y d) /\ from_index a e (d_edy d)) /\
      (* with qmax: at least [supersample] points per Nyquist interval *)
      (forall a h, 0 < d_qmax d -> 0 < h -> ResampleProps.uniform a h (d_x d) -> steps_at_most (PI / d_qmax d / d_supersample d) r).
Proof.
  intros d U QP SP. destruct (raw_ok d U) as (x0 & xn & E0 & En & ER & RP). destruct (range_ok d U) as (a & r & y & e & EI & EF & F1 & F2 & F3 & NE & LY & LE).
  unfold extract_grid. rewrite ER, EI. cbn [bind]. pose proof (u_sorted d U) as SS. pose proof PI_RGT_0 as PP.
  assert (INR' : forall t, In t r -> d_lo d <= t <= d_hi d).
  { intros t Ht. rewrite EF in Ht. apply filter_In in Ht as [_ Ht]. unfold VarsProps.in_range in Ht. apply andb_true_iff in Ht. rewrite !Rleb_spec in Ht. lra. }
  destruct (Req_EM_T (d_qmax d) 0) as [Q0|Q0].
  { exists r, y, e. split; [reflexivity|]. split; [exact (from_sorted _ _ _ SS F1)|]. split; [exact NE|]. split; [exact LY|]. split; [exact LE|]. split; [exact INR'|].
    split; [intros _; split; [exact EF|]; now exists a|]. intros; lra. }
  assert (QQ : 0 < d_qmax d) by lra. unfold dr_nyquist. rewrite (proj2 (Rltb_spec 0 (d_qmax d)) QQ). set (raw := (xn - x0) / (INR (length (d_x d)) - 1)) in *.
  assert (DN : 0 < PI / d_qmax d) by (now apply Rdiv_lt_0_compat). assert (DS : 0 < PI / d_qmax d / d_supersample d) by (now apply Rdiv_lt_0_compat).
  destruct (Rltb (PI / d_qmax d / raw) (d_supersample d)) eqn:EC.
  - destruct (resampled_ok d (PI / d_qmax d / d_supersample d) U DS) as (r' & y' & e' & EQ & NE' & LY' & LE' & G). exists r', y', e'.
    split; [exact EQ|]. split.
    { apply sorted_nth. intros i j u v L Eu Ev. destruct (G i u Eu) as (_ & x1 & X1 & ->). destruct (G j v Ev) as (_ & x2 & X2 & ->). rewrite X1 in X2. injection X2 as <-.
      apply lt_INR in L. nra. }
    split; [exact NE'|]. split; [exact LY'|]. split; [exact LE'|]. split; [intros t Ht; apply In_nth_error in Ht as (i & Ei); apply (G i t Ei)|].
    split; [intros; contradiction|]. intros a' h _ _ _ i u v Eu Ev. destruct (G i u Eu) as (_ & x1 & X1 & ->). destruct (G (S i) v Ev) as (_ & x2 & X2 & ->). rewrite X1 in X2. injection X2 as <-.
    rewrite S_INR. lra.
  - exists r, y. eexists. split; [reflexivity|]. split; [exact (from_sorted _ _ _ SS F1)|]. split; [exact NE|]. split; [exact LY|]. split; [rewrite map_length; exact LE|]. split; [exact INR'|].
    split; [intros; contradiction|]. intros a' h _ HP UN i u v Eu Ev. apply F1 in Eu. apply F1 in Ev. pose proof UN as (_ & _ & UV). rewrite (UV _ _ Eu), (UV _ _ Ev), Nat.add_succ_r, S_INR.
    assert (EH : raw = h) by (apply (ResampleProps.uniform_dr a' h (d_x d) x0 xn UN E0 En)).
    apply VarsProps.Rltb_false in EC. rewrite <- EH. replace (a' + (INR (a + i) + 1) * raw - (a' + INR (a + i) * raw)) with raw by ring.
    apply (Rmult_le_compat_r (raw / d_supersample d)) in EC; [|left; now apply Rdiv_lt_0_compat].
    replace (d_supersample d * (raw / d_supersample d)) with raw in EC by (field; lra). replace (PI / d_qmax d / raw * (raw / d_supersample d)) with (PI / d_qmax d / d_supersample d) in EC by (field; repeat split; lra).
    exact EC.
Qed.
(** The values on that grid: a data set that is fine enough keeps its points, and only its
    uncertainties are scaled, with the factor of C53; a coarser one is resampled (C51). *)
Theorem C115_extraction_data :
  forall d a h, usable d -> 0 < d_qmax d -> 0 < d_supersample d -> 0 < h -> ResampleProps.uniform a h (d_x d) ->
    (d_supersample d * h <= PI / d_qmax d ->
       exists r y e k, extract_grid d = Ok (r, y, e) /\ r = filter (VarsProps.in_range (d_lo d) (d_hi d)) (d_x d) /\
         from_index k r (d_x d) /\ from_index k y (d_y d) /\
         forall i v, nth_error e i = Some v -> exists u, nth_error (d_edy d) (k + i) = Some u /\
           v = (if d_nyquist d && d_scale d then Rmax (sqrt (PI / d_qmax d / h)) 1 else 1) * u) /\
    (PI / d_qmax d < d_supersample d * h ->
       exists r y dx e, extract_grid d = Ok (r, y, e) /\
         Resample.resampledata (d_x d) (d_y d) (d_dx d) (d_edy d) (d_lo d) (d_hi d) (d_qmax d) (d_nyquist d) (d_scale d) (PI / d_qmax d / d_supersample d) = Ok (r, y, dx, e)).
Proof.
  intros d a h U QQ SP HP UN. destruct (raw_ok d U) as (x0 & xn & E0 & En & ER & RP). destruct (range_ok d U) as (k & r & y & e & EI & EF & F1 & F2 & F3 & NE & LY & LE).
  unfold extract_grid. rewrite ER, EI. cbn [bind]. pose proof PI_RGT_0 as PP. rewrite (ResampleProps.uniform_dr a h (d_x d) x0 xn UN E0 En) in *.
  destruct (Req_EM_T (d_qmax d) 0) as [Q0|_]; [lra|]. unfold dr_nyquist. rewrite (proj2 (Rltb_spec 0 (d_qmax d)) QQ).
  assert (DS : 0 < PI / d_qmax d / d_supersample d) by (apply Rdiv_lt_0_compat; [now apply Rdiv_lt_0_compat|exact SP]).
  split; intros H.
  - assert (EC : Rltb (PI / d_qmax d / h) (d_supersample d) = false).
    { destruct (Rltb _ _) eqn:EC; [|reflexivity]. apply Rltb_spec in EC. apply (Rmult_lt_compat_r h) in EC; [|exact HP]. unfold Rdiv in EC at 1. rewrite Rmult_assoc, Rinv_l, Rmult_1_r in EC by lra. lra. }
    rewrite EC. exists r, y. eexists. exists k. split; [reflexivity|]. split; [exact EF|]. split; [exact F1|]. split; [exact F2|].
    intros i v Ev. rewrite nth_error_map in Ev. destruct (nth_error e i) as [u|] eqn:Eu; [|discriminate]. injection Ev as <-. exists u. split; [now apply F3|].
    unfold Resample.errorscale. rewrite (proj2 (Rltb_spec 0 (d_qmax d)) QQ). cbn [andb]. destruct (d_nyquist d && d_scale d); reflexivity.
  - assert (EC : Rltb (PI / d_qmax d / h) (d_supersample d) = true).
    { apply Rltb_spec. apply (Rmult_lt_reg_r h); [exact HP|]. unfold Rdiv at 1. rewrite Rmult_assoc, Rinv_l, Rmult_1_r by lra. lra. }
    rewrite EC. destruct (resampled_ok d _ U DS) as (r' & y' & e' & EQ & _). unfold resampled in *.
    destruct (Resample.resampledata _ _ _ _ _ _ _ _ _ _) as [[[[r0 y0] x1] e0]|] eqn:ES; [|discriminate]. cbn [bind] in EQ |- *. exists r0, y0, x1, e0. split; reflexivity.
Qed.
(** The grid of fit(): the data points in the range, or the Nyquist grid. *)
Theorem C115_fit_grid :
  forall d, usable d -> 0 <= d_qmax d ->
    exists r y e, fit_grid d = Ok (r, y, e) /\ StronglySorted Rlt r /\ r <> [] /\ length y = length r /\ length e = length r /\
      (forall t, In t r -> d_lo d <= t <= d_hi d) /\
      (d_qmax d = 0 \/ d_nyquist d = false -> r = filter (VarsProps.in_range (d_lo d) (d_hi d)) (d_x d) /\
         exists a, from_index a r (d_x d) /\ from_index a y (d_y d) /\ from_index a e (d_edy d)) /\
      (0 < d_qmax d -> d_nyquist d = true -> forall i u v, nth_error r i = Some u -> nth_error r (S i) = Some v -> v - u = PI / d_qmax d).
Proof.
  intros d U QP. destruct (raw_ok d U) as (x0 & xn & E0 & En & ER & RP). destruct (range_ok d U) as (a & r & y & e & EI & EF & F1 & F2 & F3 & NE & LY & LE).
  unfold fit_grid. rewrite ER, EI. cbn [bind]. pose proof (u_sorted d U) as SS. pose proof PI_RGT_0 as PP.
  assert (INR' : forall t, In t r -> d_lo d <= t <= d_hi d).
  { intros t Ht. rewrite EF in Ht. apply filter_In in Ht as [_ Ht]. unfold VarsProps.in_range in Ht. apply andb_true_iff in Ht. rewrite !Rleb_spec in Ht. lra. }
  assert (RAW : (d_qmax d = 0 \/ d_nyquist d = false) -> exists r0 y0 e0, Ok (r, y, e) = Ok (r0, y0, e0) /\ StronglySorted Rlt r0 /\ r0 <> [] /\ length y0 = length r0 /\ length e0 = length r0 /\
      (forall t, In t r0 -> d_lo d <= t <= d_hi d) /\
      (d_qmax d = 0 \/ d_nyquist d = false -> r0 = filter (VarsProps.in_range (d_lo d) (d_hi d)) (d_x d) /\
         exists a, from_index a r0 (d_x d) /\ from_index a y0 (d_y d) /\ from_index a e0 (d_edy d)) /\
      (0 < d_qmax d -> d_nyquist d = true -> forall i u v, nth_error r0 i = Some u -> nth_error r0 (S i) = Some v -> v - u = PI / d_qmax d)).
  { intros H. exists r, y, e. split; [reflexivity|]. split; [exact (from_sorted _ _ _ SS F1)|]. split; [exact NE|]. split; [exact LY|]. split; [exact LE|]. split; [exact INR'|].
    split; [intros _; split; [exact EF|now exists a]|]. intros A1 A2. destruct H as [H|H]; [lra|congruence]. }
  destruct (Req_EM_T (d_qmax d) 0) as [Q0|Q0]; [apply RAW; now left|]. destruct (d_nyquist d) eqn:NY; cbn [negb]; [|apply RAW; now right].
  assert (QQ : 0 < d_qmax d) by lra. unfold dr_nyquist. rewrite (proj2 (Rltb_spec 0 (d_qmax d)) QQ).
  assert (DN : 0 < PI / d_qmax d) by (now apply Rdiv_lt_0_compat).
  destruct (resampled_ok d (PI / d_qmax d) U DN) as (r' & y' & e' & EQ & NE' & LY' & LE' & G). exists r', y', e'. split; [exact EQ|]. split.
  { apply sorted_nth. intros i j u v L Eu Ev. destruct (G i u Eu) as (_ & x1 & X1 & ->). destruct (G j v Ev) as (_ & x2 & X2 & ->). rewrite X1 in X2. injection X2 as <-. apply lt_INR in L. nra. }
  split; [exact NE'|]. split; [exact LY'|]. split; [exact LE'|]. split; [intros t Ht; apply In_nth_error in Ht as (i & Ei); apply (G i t Ei)|].
  split; [intros [H|H]; [contradiction|discriminate]|]. intros _ _ i u v Eu Ev. destruct (G i u Eu) as (_ & x1 & X1 & ->). destruct (G (S i) v Ev) as (_ & x2 & X2 & ->). rewrite X1 in X2. injection X2 as <-.
  rewrite S_INR. lra.
Qed.

(** ** The pipeline *)
Section Pipeline.
Context {P B Q L : Type}.
Variable T : xtools P B Q.
Notation w := (t_w T).
Notation cluster := (cluster P B).
Variable enc : R -> Z.
Variable owner : P -> nat.
Variable static : P -> bool.
Variable set_owner : P -> nat -> P.
Variable ripples : nat -> bool.
Variable tfunc : nat -> nat.
Variable lab : P -> L.
Notation pdf := (@pdf P B).
Notation pdf_extract := (pdf_extract T enc owner static set_owner ripples tfunc).
Notation pdf_fit := (pdf_fit T enc).
Notation model_of := (model_of T enc owner static set_owner ripples tfunc).
Notation with_ripples := (with_ripples T enc owner static set_owner ripples tfunc).

(** ** C114 *)
(** All settings of an object. *)
Definition same_settings (s s' : pdf) : Prop :=
  p_data s' = p_data s /\ p_cres s' = p_cres s /\ p_pf s' = p_pf s /\ p_em s' = p_em s.
Theorem C114_extract_result_only_on_success :
  forall fuel s s' o, pdf_extract fuel s = (s', o) ->
    same_settings s s' /\ p_ip s' = p_ip s /\
    match o with
    | Some (Ok _) => p_type s' = Some "extract"%string /\ exists c, p_extracted s' = Some c
    | _ => p_type s' = None /\ p_extracted s' = None
    end.
Proof.
  intros fuel s s' o E. unfold PdfExtract.pdf_extract in E. destruct (PdfExtract.model_of _ _ _ _ _ _ _ _ _) as [[c|e]|]; injection E as <- <-; (split; [repeat split|]); (split; [reflexivity|]); cbn; eauto.
Qed.
Theorem C114_fit_result_only_on_success :
  forall s s' o, pdf_fit s = (s', o) ->
    same_settings s s' /\
    match o with
    | Ok _ => p_type s' = Some "fit"%string /\ exists c, p_extracted s' = Some c
    | Err _ => p_type s' = None /\ p_extracted s' = None
    end.
Proof.
  intros s s' o E. unfold PdfExtract.pdf_fit in E. destruct (fit_model T enc _) as [f|e]; [|injection E as <- <-; repeat split].
  destruct (fr_out f); injection E as <- <-; cbn; repeat split; eauto.
Qed.

(** ** C116, C117: what the extracted model is *)
(** A peak with termination ripples: a new function for peaks that may change their
    function and have none with ripples yet. *)
Definition rippled (p : P) : P := if ripples (owner p) || static p then p else set_owner p (tfunc (owner p)).
Hypothesis NEW : forall o, tfunc o <> o.
Lemma wrap_spec p : wrap owner static set_owner ripples tfunc p = Ok (rippled p).
Proof.
  unfold wrap, rippled, changeowner. destruct (ripples (owner p)); [reflexivity|]. cbn [orb]. destruct (static p); [|reflexivity]. cbn [andb].
  destruct (Nat.eqb_spec (owner p) (tfunc (owner p))) as [H|H]; [exfalso; exact (NEW _ (eq_sym H))|reflexivity].
Qed.
Lemma wrap_all_spec m : wrap_all owner static set_owner ripples tfunc m = Ok (map rippled m).
Proof. induction m as [|p m IH]; [reflexivity|]. cbn [wrap_all map]. rewrite wrap_spec, IH. reflexivity. Qed.

Hypothesis AS : argsort_ok (w_argsort w).
Hypothesis ES : engine_shape w lab.
Notation kept := (kept w lab (engine_no_nan w)).
(** [m'] came from [m] by fits and removals only, or all of [m] was removed on the way. *)
Definition chain (m m' : list P) : Prop := kept m m' \/ kept m [].
Lemma chain_step m m' m'' : chain m m' -> (m' <> [] -> kept m' m'') -> chain m m''.
Proof.
  intros [H|H] K; [|now right]. destruct m' as [|p r]; [now right|]. left. eapply kept_trans; [exact H|]. apply K. discriminate.
Qed.
Lemma chain_trans m m' m'' : chain m m' -> chain m' m'' -> chain m m''.
Proof. intros [H|H] K; [|now right]. destruct K as [K|K]; [left|right]; eapply kept_trans; eassumption. Qed.

(** The whole of the arrays r, y, e. *)
Definition whole_grid (c : cluster) (em : nat) (r y e : array) : Prop :=
  c_start c = 0%nat /\ c_stop c = length (adat r) /\ c_r c = r /\ c_y c = y /\ c_e c = e /\ c_em c = em.
Lemma make_whole m bl r y e em pf c : make_cluster w m bl r y e None em pf = Ok c -> whole_grid c em r y e /\ c_model c = m /\ c_base c = bl.
Proof.
  unfold make_cluster. unfold change_slice_from. destruct (all_below w _ _ _ _); [|discriminate]. intros E. injection E as <-. repeat split.
Qed.
Lemma frame_whole c c' em r y e : same_frame c c' -> whole_grid c em r y e -> whole_grid c' em r y e.
Proof. intros (F1 & F2 & F3 & F4 & F5 & F6 & F7 & F8) (W1 & W2 & W3 & W4 & W5 & W6). unfold whole_grid. rewrite F1, F2, F3, F4, F5, F7. repeat split; assumption. Qed.
Lemma prune_kept c m o fuel : (length (c_model c) < fuel)%nat -> prune w (t_qk T) (t_qargmax T) fuel c = Some (m, o) -> kept (c_model c) m.
Proof.
  intros F E. destruct (C42_terminates_removing_only_removable w (t_qk T) (t_qargmax T) lab AS ES c fuel F) as (m' & out & gone & E2 & PM & GR & _).
  rewrite E in E2. injection E2 as <- <-. exists gone. split; [exact PM|exact GR].
Qed.
Lemma fit_kept_fb c : c_model c <> [] -> kept (c_model c) (c_model (fr_c (fit w c false 0 true true))).
Proof.
  intros NM. unfold fit. destruct (c_never c); [apply kept_refl|].
  destruct (c_model c) as [|p m] eqn:M; [contradiction|]. rewrite <- M. clear M p m NM. cbn [andb]. set (c2 := set_last c (c_size c)).
  change (c_model c2) with (c_model c). set (fb := match c_base c2 with None => _ | Some _ => _ end).
  destruct (w_engine w (c_model c) _ c2 0) as [[ps ob] out] eqn:EE.
  pose proof (sig_engine w lab _ _ (ES _ _ _ _ _ _ _ EE)) as SG.
  assert (K0 : kept (c_model c) ps) by (apply kept_perm; now rewrite SG).
  assert (KR : kept (c_model c) (c_model c)) by apply kept_refl.
  destruct out as [[]|e]; [|destruct e; cbn [fr_c set_base set_model c_model]; assumption].
  assert (KS : kept (c_model c) (sort_peaks w ps)).
  { eapply kept_trans; [exact K0|]. apply kept_perm. apply Permutation_map. symmetry. apply (sort_perm w AS). }
  destruct (cleanfit w (sort_peaks w ps) (r_cluster c2) (e_cluster c2)) as [[ps2 n]|e] eqn:CF; [|cbn [fr_c set_base set_model c_model]; assumption].
  assert (K2 : kept (c_model c) ps2).
  { destruct (cleanfit_kept w lab _ _ _ _ _ CF) as (rem & Pm & H). eapply kept_trans; [exact KS|]. exists rem. split; [exact Pm|]. intros NN. apply H.
    intros p Hp. apply (NN _ _ _ _ _ _ EE). eapply Permutation_in; [apply (sort_perm w AS)|exact Hp]. }
  destruct (w_qlt w _ _); cbn [fr_c set_base set_model c_model]; [exact KR|exact K2].
Qed.
Lemma fit_chain c b : chain (c_model c) (c_model (fr_c (fit w c false 0 b true))).
Proof.
  destruct (c_model c) as [|p0 m0] eqn:M; [right; apply kept_refl|]. rewrite <- M. left. destruct b.
  - apply fit_kept_fb. rewrite M. discriminate.
  - rewrite fit_est by (rewrite M; discriminate). apply (fit_kept w lab AS ES c false 0).
Qed.

Section Loop.
Variable res : R -> result (array * array * array).
Variable bl : option B.
Variable em : nat.
Variable pf : list nat.
Variable sp drn : R.
Lemma round_whole dr c c' : round w (t_qk T) (t_qargmax T) res bl em pf dr c = Some (Ok c') ->
  exists r y e, res dr = Ok (r, y, e) /\ whole_grid c' em r y e /\ chain (c_model c) (c_model c') /\ c_pf c' = pf.
Proof.
  unfold Nyquist.round. destruct (res dr) as [[[r y] e]|x]; [|discriminate]. destruct (make_cluster w (c_model c) bl r y e None em pf) as [c1|x] eqn:EM; [|discriminate].
  assert (PF : c_pf c1 = pf). { unfold make_cluster, change_slice_from in EM. destruct (all_below w _ _ _ _); [|discriminate]. now injection EM as <-. }
  destruct (make_whole _ _ _ _ _ _ _ _ EM) as (W1 & M1 & B1). pose proof (fit_chain c1 false) as FC. pose proof (fit_frame w AS c1 false 0 false true) as FF.
  set (f := fit w c1 false 0 false true) in *. destruct (fr_out f); [|discriminate].
  destruct (prune w _ _ _ (fr_c f)) as [[m [u|x]]|] eqn:PR; try discriminate. intros E. injection E as <-. exists r, y, e. split; [reflexivity|].
  assert (SF : same_frame (fr_c f) (set_model (fr_c f) m)) by (repeat split).
  split; [exact (frame_whole _ _ _ _ _ _ SF (frame_whole _ _ _ _ _ _ FF W1))|]. split.
  - rewrite <- M1. apply chain_trans with (c_model (fr_c f)); [exact FC|]. left. cbn [set_model c_model]. apply prune_kept in PR; [exact PR|lia].
  - cbn [set_model c_pf]. destruct FF as (_ & _ & _ & _ & _ & _ & _ & F). now rewrite F.
Qed.
Lemma loop_whole fuel : forall c used c' u, nyquist_loop w (t_qk T) (t_qargmax T) res bl em pf sp drn fuel c used = Some (Ok (c', u)) ->
  exists dr n r y e, dr = interval sp drn n /\ res dr = Ok (r, y, e) /\ whole_grid c' em r y e /\ chain (c_model c) (c_model c') /\ c_pf c' = pf /\
    (INR (free w c) < sp / drn -> dr = drn).
Proof.
  induction fuel as [|fuel IH]; intros c used c' u E; [discriminate|]. cbn [nyquist_loop] in E.
  destruct (round w (t_qk T) (t_qargmax T) res bl em pf (interval sp drn (free w c)) c) as [[c1|x]|] eqn:RD; try discriminate.
  destruct (round_whole _ _ _ RD) as (r & y & e & E1 & E2 & E3 & E4). destruct (Req_EM_T _ drn) as [ED|ED].
  { injection E as <- <-. eexists _, _, r, y, e. split; [reflexivity|]. split; [exact E1|]. split; [exact E2|]. split; [exact E3|]. split; [exact E4|]. intros _. exact ED. }
  destruct (Nat.eqb_spec (free w c1) (free w c)) as [EF|EF].
  { injection E as <- <-. eexists _, _, r, y, e. split; [reflexivity|]. split; [exact E1|]. split; [exact E2|]. split; [exact E3|]. split; [exact E4|]. intros K. now apply interval_coarse. }
  destruct (IH _ _ _ _ E) as (dr & n & r' & y' & e' & A1 & A2 & A3 & A4 & A5 & A6). exists dr, n, r', y', e'.
  split; [exact A1|]. split; [exact A2|]. split; [exact A3|]. split; [eapply chain_trans; [exact E3|exact A4]|]. split; [exact A5|]. intros K. exfalso. apply ED. now apply interval_coarse.
Qed.
End Loop.

(** changeowner touches nothing but the owner *)
Hypothesis SO1 : forall p o, owner (set_owner p o) = o.
Hypothesis SO2 : forall p o, w_removable w (set_owner p o) = w_removable w p.
Hypothesis SO3 : forall p o, w_p_npars w false (set_owner p o) = w_p_npars w false p.
(** The scaled integers keep the points of the grid apart. *)
Definition resolves (d : data) : Prop := forall r y e, extract_grid d = Ok (r, y, e) -> forall a b, In a r -> In b r -> a < b -> (enc a < enc b)%Z.
Lemma enc_increasing (r : list R) : StronglySorted Rlt r -> (forall a b, In a r -> In b r -> a < b -> (enc a < enc b)%Z) -> DataClustersSpec.increasing (map enc r).
Proof.
  intros SS H i j a b IJ A C. rewrite nth_error_map in A, C. destruct (nth_error r i) as [u|] eqn:Eu; [|discriminate]. destruct (nth_error r j) as [v|] eqn:Ev; [|discriminate].
  injection A as <-. injection C as <-. apply H; [eapply nth_error_In; exact Eu|eapply nth_error_In; exact Ev|]. exact (proj1 (sorted_nth r) SS i j u v IJ Eu Ev).
Qed.

(** The model installed by a successful extract(). *)
Theorem C116_extracted_model :
  forall fuel s s', let d := p_data s in
    sane T (p_bl s) -> usable d -> 0 <= d_qmax d -> 0 < d_supersample d -> resolves d ->
    pdf_extract fuel s = (s', Some (Ok tt)) ->
    exists r1 y1 e1 c0 c r y e,
      extract_grid d = Ok (r1, y1, e1) /\
      (* the initial extraction *)
      extract T (p_bl s) (p_cres s) (p_em s) (p_pf s) 4 1 (map enc r1) (map enc y1) (map enc e1) (p_ip s) = Some (Ok c0) /\
      p_extracted s' = Some c /\
      (* the result covers all of one grid, with its data and uncertainties *)
      c_start c = 0%nat /\ c_stop c = length r /\ adat (c_r c) = map enc r /\ adat (c_e c) = map enc e /\ c_em c = p_em s /\
      ((forall z, w_rnd w z = z) -> adat (c_y c) = map enc y) /\
      (* which is that of the initial extraction, or at most Nyquist-sampled *)
      (d_qmax d = 0 \/ d_nyquist d = false -> (r, y, e) = (r1, y1, e1)) /\
      (0 < d_qmax d -> d_nyquist d = true -> (2 <= length r1)%nat ->
         exists dr, resampled d dr = Ok (r, y, e) /\ 0 < dr <= PI / d_qmax d /\
           (* exactly Nyquist-sampled if the initial model has few enough free parameters *)
           (forall a b, nth_error r1 0 = Some a -> nth_error r1 (length r1 - 1) = Some b -> INR (free w c0) < (b - a) / (PI / d_qmax d) -> dr = PI / d_qmax d)) /\
      chain (if Req_EM_T (d_qmax d) 0 then c_model c0 else map rippled (c_model c0)) (c_model c).
Proof.
  intros fuel s s' d SN U QP SP RV E. unfold PdfExtract.pdf_extract in E.
  destruct (PdfExtract.model_of T enc owner static set_owner ripples tfunc fuel (clearcalc s)) as [[c|x]|] eqn:EM; try discriminate. injection E as <-.
  destruct (C115_extraction_grid d U QP SP) as (r1 & y1 & e1 & EG & SS & NE & LY & LE & _).
  unfold PdfExtract.model_of in EM. change (p_data (clearcalc s)) with d in EM. destruct (raw_ok d U) as (x0 & xn & _ & _ & ER & RP). rewrite ER in EM. cbn [lift obind] in EM. rewrite EG in EM. cbn [lift obind] in EM.
  cbn [clearcalc with_result p_bl p_cres p_em p_pf p_ip] in EM.
  destruct (extract T (p_bl s) (p_cres s) (p_em s) (p_pf s) 4 1 (map enc r1) (map enc y1) (map enc e1) (p_ip s)) as [[c0|x]|] eqn:EX; try discriminate. cbn [obind] in EM.
  assert (IN : DataClustersSpec.increasing (map enc r1)) by (apply enc_increasing; [exact SS|exact (RV _ _ _ EG)]).
  destruct (C49_extracted_spans_the_data T (p_bl s) (p_cres s) (p_em s) (p_pf s) SN 4 1 (map enc r1) (map enc y1) (map enc e1) (p_ip s) c0) as (G1 & G2 & G3 & G4 & G5 & G6 & G7); try assumption.
  { intros C. apply NE. destruct r1; [reflexivity|discriminate]. } { now rewrite !map_length. } { now rewrite !map_length. }
  (* the final fit *)
  assert (FIN : forall c1, match fr_out (fit w c1 false 0 true true) with Ok _ => Some (Ok (fr_c (fit w c1 false 0 true true))) | Err e => Some (Err e) end = Some (Ok c) ->
    same_frame c1 c /\ chain (c_model c1) (c_model c)).
  { intros c1 H. pose proof (fit_chain c1 true) as FC. pose proof (fit_frame w AS c1 false 0 true true) as FF. destruct (fr_out _); [|discriminate]. injection H as <-. auto. }
  assert (ENDS : forall c1 (r y e : list R), whole_grid c1 (p_em s) (c_r c1) (c_y c1) (c_e c1) -> adat (c_r c1) = map enc r -> adat (c_e c1) = map enc e ->
    ((forall z, w_rnd w z = z) -> adat (c_y c1) = map enc y) -> same_frame c1 c ->
    c_start c = 0%nat /\ c_stop c = length r /\ adat (c_r c) = map enc r /\ adat (c_e c) = map enc e /\ c_em c = p_em s /\ ((forall z, w_rnd w z = z) -> adat (c_y c) = map enc y)).
  { intros c1 r y e (W1 & W2 & _ & _ & _ & W6) A1 A2 A3 (F1 & F2 & F3 & F4 & F5 & F6 & F7 & F8). rewrite F4, F5, F1, F3, F7, F2, W2, A1, map_length. auto 10. }
  destruct (Rltb 0 (d_qmax d)) eqn:QQ.
  2:{ cbn [obind] in EM. destruct (FIN c0 EM) as [FF FC]. exists r1, y1, e1, c0, c, r1, y1, e1. split; [exact EG|]. split; [exact EX|]. split; [reflexivity|].
      apply VarsProps.Rltb_false in QQ. assert (Q0 : d_qmax d = 0) by lra.
      destruct (ENDS c0 r1 y1 e1) as (Z1 & Z2 & Z3 & Z4 & Z5 & Z6); try assumption. { unfold whole_grid. rewrite G3, map_length in *. repeat split; try assumption. }
      split; [exact Z1|]. split; [exact Z2|]. split; [exact Z3|]. split; [exact Z4|]. split; [exact Z5|]. split; [exact Z6|]. split; [auto|]. split; [intros; lra|].
      destruct (Req_EM_T (d_qmax d) 0); [exact FC|contradiction]. }
  apply Rltb_spec in QQ. unfold PdfExtract.with_ripples in EM. rewrite wrap_all_spec in EM. cbn [lift obind] in EM. cbn [clearcalc with_result p_data] in EM. change (p_data s) with d in EM.
  assert (DRN : 0 < PI / d_qmax d) by (apply Rdiv_lt_0_compat; [apply PI_RGT_0|exact QQ]).
  assert (DN : forall raw, dr_nyquist d raw = PI / d_qmax d) by (intros raw; unfold dr_nyquist; now rewrite (proj2 (Rltb_spec 0 (d_qmax d)) QQ)). rewrite DN in EM.
  destruct (d_nyquist d) eqn:NY.
  - destruct (span r1) as [sp|x] eqn:ESP; [|discriminate]. cbn [lift obind] in EM. cbn [set_model c_base p_em p_pf] in EM.
    match type of EM with context [nyquist_loop ?a ?b ?cc ?dd ?ee ?ff ?gg ?hh ?ii ?jj ?kk ?ll] => destruct (nyquist_loop a b cc dd ee ff gg hh ii jj kk ll) as [[[c1 used]|x]|] eqn:NL end; try discriminate.
    cbn [lift obind fst] in EM. destruct (FIN c1 EM) as [FF FC].
    destruct (loop_whole _ _ _ _ _ _ _ _ _ _ _ NL) as (dr & n & ar & ay & ae & A1 & A2 & A3 & A4 & A5 & A6).
    unfold resampled_arrays in A2. cbn [clearcalc with_result p_data] in A2. change (p_data s) with d in A2. destruct (resampled d dr) as [[[r y] e]|x] eqn:ERS; [|discriminate]. cbn [bind] in A2. injection A2 as <- <- <-.
    pose proof A3 as (W1 & W2 & W3 & W4 & W5 & W6).
    exists r1, y1, e1, c0, c, r, y, e. split; [exact EG|]. split; [exact EX|]. split; [reflexivity|].
    destruct (ENDS c1 r y e) as (Z1 & Z2 & Z3 & Z4 & Z5 & Z6); try assumption.
    { unfold whole_grid. rewrite W3. repeat split; assumption. } { rewrite W3. reflexivity. } { rewrite W5. reflexivity. } { intros _. rewrite W4. reflexivity. }
    split; [exact Z1|]. split; [exact Z2|]. split; [exact Z3|]. split; [exact Z4|]. split; [exact Z5|]. split; [exact Z6|]. split; [intros [H|H]; [lra|discriminate]|]. split.
    + intros _ _ L2. exists dr. split; [exact ERS|].
      assert (SPP : 0 < sp /\ forall a b, nth_error r1 0 = Some a -> nth_error r1 (length r1 - 1) = Some b -> sp = b - a).
      { unfold span in ESP. destruct (nth_error r1 0) as [u|] eqn:Eu; [|apply nth_error_None in Eu; lia]. destruct (nth_error r1 (length r1 - 1)) as [v|] eqn:Ev; [|apply nth_error_None in Ev; lia].
        change (pyget r1 0) with (pyget r1 (Z.of_nat 0)) in ESP. rewrite (ResampleProps.pyget_ok _ _ _ Eu), (ResampleProps.pyget_last _ _ Ev) in ESP. cbn [bind] in ESP. injection ESP as <-.
        pose proof (proj1 (sorted_nth r1) SS 0%nat (length r1 - 1)%nat u v ltac:(lia) Eu Ev). split; [lra|]. intros a b Ea Eb. congruence. }
      destruct SPP as [SPP SPE].
      assert (FW : free w (set_model c0 (map rippled (c_model c0))) = free w c0).
      { unfold Nyquist.free, npars. cbn [set_model c_model c_base]. f_equal. unfold model_npars. f_equal. rewrite map_map. apply map_ext. intros p. unfold rippled. destruct (_ || _); [reflexivity|apply SO3]. }
      rewrite FW in A6. split; [|intros a b Ea Eb K; rewrite <- (SPE a b Ea Eb) in K; now apply A6].
      destruct (Rlt_dec (INR n) (sp / (PI / d_qmax d))) as [K|K].
      * rewrite A1, (interval_coarse _ _ _ K). lra.
      * destruct (interval_fine sp (PI / d_qmax d) SPP DRN n) as (I1 & I2 & I3); [lra|]. rewrite <- A1 in *. lra.
    + destruct (Req_EM_T (d_qmax d) 0); [lra|]. eapply chain_trans; [exact A4|exact FC].
  - destruct (make_cluster w _ (c_base c0) _ _ _ None _ _) as [c2|x] eqn:MK; [|discriminate]. cbn [lift obind] in EM. destruct (make_whole _ _ _ _ _ _ _ _ MK) as (W & M2 & B2).
    destruct (prune w _ _ _ c2) as [[m2 [u|x]]|] eqn:PR; try discriminate. cbn [obind] in EM. destruct (FIN _ EM) as [FF FC]. cbn [set_model c_model] in FC.
    apply prune_kept in PR; [|lia]. exists r1, y1, e1, c0, c, r1, y1, e1. split; [exact EG|]. split; [exact EX|]. split; [reflexivity|].
    pose proof W as (W1 & W2 & W3 & W4 & W5 & W6).
    destruct (ENDS (set_model c2 m2) r1 y1 e1) as (Z1 & Z2 & Z3 & Z4 & Z5 & Z6); try assumption; cbn [set_model c_r c_e c_y].
    { unfold whole_grid. cbn [set_model c_start c_stop c_r c_y c_e c_em]. rewrite W3. repeat split; assumption. } { rewrite W3. reflexivity. } { rewrite W5. reflexivity. } { intros _. rewrite W4. reflexivity. }
    split; [exact Z1|]. split; [exact Z2|]. split; [exact Z3|]. split; [exact Z4|]. split; [exact Z5|]. split; [exact Z6|]. split; [auto|]. split; [intros; discriminate|].
    destruct (Req_EM_T (d_qmax d) 0); [lra|]. rewrite M2 in PR. cbn [set_model c_model] in PR. eapply chain_trans; [left; exact PR|exact FC].
Qed.

(** ** C117: termination ripples *)
(** Fits keep the function of a peak and whether it may change. *)
Hypothesis LO : forall p q, lab p = lab q -> owner p = owner q /\ static p = static q.
Hypothesis SO4 : forall p o, static (set_owner p o) = static p.
Hypothesis RT : forall o, ripples (tfunc o) = true.
Lemma kept_in s m m' q : PruneProofs.kept w lab s m m' -> In q m' -> exists p, In p m /\ lab q = lab p /\ w_removable w q = w_removable w p.
Proof.
  intros (rem & PM & _) Hq. assert (I : In (lab q, w_removable w q) (sig w lab m)).
  { eapply Permutation_in; [apply Permutation_sym; exact PM|]. apply in_or_app. left. unfold sig. apply in_map_iff. now exists q. }
  unfold sig in I. apply in_map_iff in I as (p & E & Hp). injection E as E1 E2. exists p. auto.
Qed.
Lemma kept_nil m : engine_no_nan w -> kept m [] -> forall p, In p m -> w_removable w p = true.
Proof.
  intros NN (rem & PM & H) p Hp. cbn [sig map app] in PM. apply (H NN (lab p, w_removable w p)). eapply Permutation_in; [exact PM|]. unfold sig. apply in_map_iff. now exists p.
Qed.
Lemma rippled_removable p : w_removable w (rippled p) = w_removable w p.
Proof. unfold rippled. destruct (_ || _); [reflexivity|apply SO2]. Qed.
Theorem C117_ripples :
  forall fuel s s', let d := p_data s in
    sane T (p_bl s) -> usable d -> 0 < d_qmax d -> 0 < d_supersample d -> resolves d ->
    pdf_extract fuel s = (s', Some (Ok tt)) ->
    exists (found : list P) c, p_extracted s' = Some c /\
      ( (* every peak is one of those found, with ripples unless its function may not be changed *)
        (forall q, In q (c_model c) -> exists p, In p found /\ lab q = lab (rippled p) /\
           (static p = false -> ripples (owner q) = true) /\ (static p = true -> owner q = owner p))
        \/ (* or all peaks found were removed on the way *)
        (engine_no_nan w -> forall p, In p found -> w_removable w p = true)).
Proof.
  intros fuel s s' d SN U QP SP RV E. destruct (C116_extracted_model fuel s s' SN U (Rlt_le _ _ QP) SP RV E) as (r1 & y1 & e1 & c0 & c & r & y & e & _ & _ & EC & _ & _ & _ & _ & _ & _ & _ & _ & CH).
  exists (c_model c0), c. split; [exact EC|]. fold d in CH. destruct (Req_EM_T (d_qmax d) 0); [lra|]. destruct CH as [K|K].
  - left. intros q Hq. destruct (kept_in _ _ _ q K Hq) as (p' & Hp & LQ & _). apply in_map_iff in Hp as (p & <- & Hp). exists p. split; [exact Hp|]. split; [exact LQ|].
    destruct (LO _ _ LQ) as [O1 _]. rewrite O1. unfold rippled. destruct (ripples (owner p)) eqn:RP; cbn [orb]; [split; auto|]. destruct (static p); [split; [discriminate|auto]|]. rewrite SO1. split; [intros _; apply RT|discriminate].
  - right. intros NN p Hp. rewrite <- rippled_removable. apply (kept_nil _ NN K). now apply in_map.
Qed.

(** ** C118: peaks the user protects *)
Hypothesis LS : forall p q, lab p = lab q -> lab (set_owner p (tfunc (owner p))) = lab (set_owner q (tfunc (owner q))).
Lemma rippled_lab p q : lab p = lab q -> lab (rippled p) = lab (rippled q).
Proof. intros H. destruct (LO _ _ H) as [H1 H2]. unfold rippled. pose proof (LS _ _ H) as E. rewrite H1 in E |- *. rewrite H2. destruct (_ || _); [exact H|exact E]. Qed.
Theorem C118_protected_initial_peaks_survive :
  forall fuel s s', let d := p_data s in
    sane T (p_bl s) -> engine_no_nan w -> usable d -> 0 <= d_qmax d -> 0 < d_supersample d -> resolves d ->
    pdf_extract fuel s = (s', Some (Ok tt)) ->
    exists c, p_extracted s' = Some c /\
      forall p, In p (p_ip s) -> w_removable w p = false ->
        exists q, In q (c_model c) /\ w_removable w q = false /\ lab q = lab (if Req_EM_T (d_qmax d) 0 then p else rippled p).
Proof.
  intros fuel s s' d SN NN U QP SP RV E.
  destruct (C116_extracted_model fuel s s' SN U QP SP RV E) as (r1 & y1 & e1 & c0 & c & r & y & e & EG & EX & EC & _ & _ & _ & _ & _ & _ & _ & _ & CH).
  exists c. split; [exact EC|]. intros p Hp NR. fold d in CH, EG.
  destruct (C115_extraction_grid d U QP SP) as (r1' & y1' & e1' & EG' & SS & NE & LY & LE & _). rewrite EG in EG'. injection EG' as <- <- <-.
  destruct (C69_protected_initial_peaks_survive T (p_bl s) (p_cres s) (p_em s) (p_pf s) lab SN ES NN 4 1 (map enc r1) (map enc y1) (map enc e1) (p_ip s) c0) with (p := p) as (q & Hq & LQ & RQ); try assumption.
  { apply enc_increasing; [exact SS|exact (RV _ _ _ EG)]. } { intros C. apply NE. destruct r1; [reflexivity|discriminate]. } { now rewrite !map_length. } { now rewrite !map_length. }
  set (f := fun p => if Req_EM_T (d_qmax d) 0 then p else rippled p).
  assert (CH' : chain (map f (c_model c0)) (c_model c)). { unfold f. destruct (Req_EM_T (d_qmax d) 0); [rewrite map_id|]; exact CH. }
  assert (FR : forall t, w_removable w (f t) = w_removable w t) by (intros t; unfold f; destruct (Req_EM_T (d_qmax d) 0); [reflexivity|apply rippled_removable]).
  assert (FL : lab (f q) = lab (f p)) by (unfold f; destruct (Req_EM_T (d_qmax d) 0); [exact LQ|now apply rippled_lab]).
  destruct CH' as [K|K]; [|exfalso; pose proof (kept_nil _ NN K (f q) (in_map f _ _ Hq)) as H; rewrite FR in H; congruence].
  destruct K as (rem & PM & H). assert (I : In (lab (f q), w_removable w (f q)) (sig w lab (c_model c) ++ rem)).
  { eapply Permutation_in; [exact PM|]. unfold sig. apply in_map_iff. exists (f q). split; [reflexivity|now apply in_map]. }
  apply in_app_or in I as [I|I].
  - unfold sig in I. apply in_map_iff in I as (z & EZ & Hz). injection EZ as EZ1 EZ2. exists z. split; [exact Hz|]. rewrite FR in EZ2. split; [congruence|]. change (lab z = lab (f p)). congruence.
  - apply (H NN) in I. cbn [snd] in I. rewrite FR in I. congruence.
Qed.
(** ** C119: fit() *)
Theorem C119_fit_model :
  forall s s', let d := p_data s in
    usable d -> 0 <= d_qmax d -> pdf_fit s = (s', Ok tt) ->
    exists r y e c c1, fit_grid d = Ok (r, y, e) /\ p_extracted s' = Some c /\
      (* the whole grid, with its data and uncertainties *)
      c_start c = 0%nat /\ c_stop c = length r /\ adat (c_r c) = map enc r /\ adat (c_y c) = map enc y /\ adat (c_e c) = map enc e /\ c_em c = p_em s /\
      (* the peaks are the initial ones, but for removed ones; none is added, with or without ripples *)
      kept (p_ip s) (c_model c) /\ (length (c_model c) <= length (p_ip s))%nat /\
      (* the result is not worse than the initial peaks and baseline on that grid *)
      make_cluster w (p_ip s) (Some (p_bl s)) (arr enc 0 r) (arr enc 1 y) (arr enc 2 e) None (p_em s) (p_pf s) = Ok c1 /\
      (c_model c = p_ip s /\ c_base c = Some (p_bl s) \/ w_qlt w (w_quality w c) (w_quality w c1) = false).
Proof.
  intros s s' d U QP E. destruct (C115_fit_grid d U QP) as (r & y & e & EG & SS & NE & LY & LE & _).
  unfold PdfExtract.pdf_fit, fit_model in E. cbn [clearcalc with_result p_data p_ip p_bl p_em p_pf] in E. fold d in E. rewrite EG in E. cbn [bind] in E.
  destruct (make_cluster w (p_ip s) (Some (p_bl s)) (arr enc 0 r) (arr enc 1 y) (arr enc 2 e) None (p_em s) (p_pf s)) as [c1|x] eqn:MK; [|discriminate]. cbn [bind] in E.
  destruct (make_whole _ _ _ _ _ _ _ _ MK) as (W & M1 & B1).
  pose proof (fit_frame w AS c1 false 0 true false) as FF. pose proof (C37_fit_never_worse w AS c1 false 0 true false) as NW. cbv zeta in NW. destruct NW as (_ & c2 & C2 & NW).
  assert (K : kept (c_model c1) (c_model (fr_c (fit w c1 false 0 true false)))).
  { destruct (c_model c1) as [|p m] eqn:M.
    - unfold fit. rewrite M. destruct (c_never c1); cbn [fr_c]; rewrite M; apply kept_refl.
    - rewrite <- M. assert (N : c_model c1 <> []) by (rewrite M; discriminate).
      replace (fit w c1 false 0 true false) with (fit w c1 false 0 true true); [now apply fit_kept_fb|]. unfold fit. rewrite M. reflexivity. }
  assert (EE : c2 = c1).
  { destruct C2 as [C2|(C2 & p & _ & C3)]; [exact C2|]. exfalso. revert NW. unfold fit. rewrite C2. destruct (c_never c1); cbn [fr_out fr_c]; intros [N1 N2]; rewrite C2, C3 in N1; cbn in N1; discriminate. }
  rewrite EE in NW. clear EE C2 c2. set (f := fit w c1 false 0 true false) in *. clearbody f.
  destruct (fr_out f) as [oq|x]; [|discriminate]. injection E as <-. exists r, y, e, (fr_c f), c1. split; [exact EG|]. split; [reflexivity|].
  destruct (frame_whole _ _ _ _ _ _ FF W) as (V1 & V2 & V3 & V4 & V5 & V6). split; [exact V1|].
  split; [rewrite V2; apply map_length|]. split; [rewrite V3; reflexivity|]. split; [rewrite V4; reflexivity|]. split; [rewrite V5; reflexivity|]. split; [exact V6|].
  rewrite M1 in K. split; [exact K|]. split.
  { destruct K as (rem & PM & _). apply Permutation_length in PM. rewrite app_length in PM. unfold sig in PM. rewrite !map_length in PM. lia. }
  split; [exact MK|]. destruct oq as [q|].
  - destruct NW as (-> & NW & _). now right.
  - destruct NW as (NW1 & NW2). left. rewrite NW1, NW2. auto.
Qed.

(** ** C120: the objects passed to fit() are changed, also by a fit that is undone *)
Theorem C120_initial_peaks_unchanged_refuted :
  forall s r y e c1 ps ob q, let d := p_data s in
    fit_grid d = Ok (r, y, e) -> p_ip s <> [] -> (0 < w_b_npars w false (p_bl s))%nat ->
    make_cluster w (p_ip s) (Some (p_bl s)) (arr enc 0 r) (arr enc 1 y) (arr enc 2 e) None (p_em s) (p_pf s) = Ok c1 -> c_never c1 = false ->
    (* the fit of peaks and baseline fails, leaving ps and q in them *)
    w_engine w (p_ip s) (Some (p_bl s)) (set_last c1 (c_size c1)) 0 = ((ps, ob), Err FitError) -> ob = Some q ->
    exists s' c, pdf_fit s = (s', Ok tt) /\ p_extracted s' = Some c /\
      (* the result is the initial model *) c_model c = p_ip s /\ c_base c = Some (p_bl s) /\
      (* the settings are not *) p_ip s' = ps /\ p_bl s' = q.
Proof.
  intros s r y e c1 ps ob q d EG NE NP MK NV EE ->. unfold PdfExtract.pdf_fit, fit_model. cbn [clearcalc with_result p_data p_ip p_bl p_em p_pf]. fold d. rewrite EG. cbn [bind]. rewrite MK. cbn [bind].
  destruct (make_whole _ _ _ _ _ _ _ _ MK) as (_ & M1 & B1). unfold fit. rewrite NV, M1. destruct (p_ip s) as [|p m] eqn:IP; [contradiction|]. 
  change (c_base (set_last c1 (c_size c1))) with (c_base c1). change (c_model (set_last c1 (c_size c1))) with (c_model c1). rewrite B1, M1. apply Nat.ltb_lt in NP. rewrite NP. cbn [andb]. rewrite EE. cbn [fr_out fr_list fr_base fr_c].
  eexists _, (set_last c1 (c_size c1)). split; [reflexivity|]. cbn. rewrite M1, B1. repeat split.
Qed.
End Pipeline.
(** ** Examples, and C121 *)
(** A peak is the number of its function, those from 100 on having ripples, and whether it
    is removable. *)
Section Example.
Local Open Scope Z_scope.
Definition rpeak : Type := nat * bool.
Definition rquality (c : cluster rpeak Z) : Z := match c_model c with [] => 0 | [p] => if (fst p <? 100)%nat then 1 else -1 | _ => -5 end.
Definition rworld : world rpeak Z Z :=
  mkWorld (fun x => x) (fun p => Some 1) snd (fun _ => false)
    (fun _ r => map (fun _ => 0) r) (fun cf p => 3%nat) (fun cf b => 1%nat) (fun b r => map (fun _ => b) r) Z.eqb ModelClusterProofs.isort (fun _ => 3%nat)
    rquality Z.ltb (fun _ c _ => false) (fun c => Ok (Some (7%nat, true))) (fun m b _ _ => ((m, b), Ok tt)) (fun a b => (a + b) / 2) (fun _ _ m => m).
Definition rtools : xtools rpeak Z Z :=
  mkTools rworld (fun c _ => rquality c) zargmax DataClustersExamples.isort (fun _ n => Z.of_nat n) (fun z => z / 20 + 1).
Definition rx : list Z := [0; 1; 2; 3].
Definition ry : list Z := [0; 4; 8; 4].
Definition re : list Z := [1; 1; 1; 1].
Definition rripples (o : nat) : bool := (100 <=? o)%nat.
Definition rtfunc (o : nat) : nat := (o + 100)%nat.
(** changing the function of peak p *)
Definition rset (p : rpeak) (o : nat) : rpeak := (o, snd p).
End Example.
Definition rdata (q : R) : data := mkData (map IZR rx) (map IZR ry) None (map IZR re) 0 3 q 3 false false.
Definition rpdf (q : R) (ip : list rpeak) : @pdf rpeak Z := mkPdf (rdata q) 2 [7%nat] 0 0%Z ip None None.
Definition run_r (q : R) (ip : list rpeak) := PdfExtract.pdf_extract rtools Int_part fst (fun _ => false) rset rripples rtfunc 5 (rpdf q ip).

Definition run_owned (q : R) (ip : list rpeak) := PdfExtract.owned rtools Int_part fst (fun _ => false) rset rripples rtfunc 5 (clearcalc (rpdf q ip)).

Lemma int_part_IZR z : Int_part (IZR z) = z.
Proof. unfold Int_part. rewrite <- (tech_up (IZR z) (z + 1)); [lia| |]; rewrite plus_IZR; lra. Qed.
Lemma int_parts l : map Int_part (map IZR l) = l.
Proof. rewrite map_map. rewrite <- (map_id l) at 2. apply map_ext. intros z. apply int_part_IZR. Qed.
Lemma rusable q : usable (rdata q).
Proof.
  split; cbn [rdata d_x d_y d_edy d_lo d_hi rx ry re map length].
  - repeat constructor; lra.
  - reflexivity.
  - reflexivity.
  - intros e [<-|[<-|[<-|[<-|[]]]]]; lra.
  - exists 0, 3. cbn. repeat split; try tauto; lra.
Qed.
Lemma rgrid q : q = 0 \/ q = 1 -> extract_grid (rdata q) = Ok (map IZR rx, map IZR ry, map IZR re).
Proof.
  intros HQ. destruct (range_ok _ (rusable q)) as (a & r & y & e & EI & EF & F1 & F2 & F3 & NE & LY & LE).
  assert (ER : r = map IZR rx).
  { rewrite EF. cbn [rdata d_x d_lo d_hi rx map filter]. unfold VarsProps.in_range.
    repeat match goal with |- context [Rleb ?u ?v] => let H := fresh in assert (H : Rleb u v = true) by (apply Rleb_spec; lra); rewrite H; clear H end. reflexivity. }
  rewrite ER in *. clear EF.
  assert (A0 : a = 0%nat).
  { specialize (F1 0%nat 0 eq_refl). cbn [rdata d_x rx map] in F1. rewrite Nat.add_0_r in F1. destruct a as [|[|[|[|a]]]]; cbn in F1; [reflexivity|injection F1; intros; lra..|destruct a; discriminate]. }
  assert (SAME : forall g l : list R, from_index a g l -> length g = 4%nat -> length l = 4%nat -> g = l).
  { subst a. intros g l F L1 L2. apply TracerProps.nth_ext_list. intros i. destruct (nth_error g i) as [v|] eqn:E; [symmetry; apply (F i v E)|].
    apply nth_error_None in E. symmetry. apply nth_error_None. lia. }
  assert (LR : length (map IZR rx) = 4%nat) by reflexivity.
  apply SAME in F2; [|congruence|reflexivity]. apply SAME in F3; [|congruence|reflexivity]. subst y e.
  unfold extract_grid. rewrite EI. destruct (raw_ok _ (rusable q)) as (x0 & xn & E0 & En & ERW & _). rewrite ERW. cbn [bind].
  injection E0 as <-. injection En as <-. cbn [rdata d_qmax d_supersample d_x d_y d_edy d_nyquist d_scale rx map length].
  destruct (Req_EM_T q 0) as [Z|Z]; [reflexivity|]. destruct HQ as [-> | ->]; [lra|]. unfold dr_nyquist. cbn [rdata d_qmax].
  assert (P3 : 3 < PI) by (pose proof PI2_3_2; lra).
  assert (H : Rltb 0 1 = true) by (apply Rltb_spec; lra). rewrite H.
  destruct (Rltb _ 3) eqn:C; [apply Rltb_spec in C; cbn [INR] in C; exfalso; revert C; apply Rle_not_lt; apply Rmult_le_reg_r with ((3 - 0) / (1 + 1 + 1 + 1 - 1)); [lra|];
    field_simplify; lra|].
  unfold Resample.errorscale. cbn [andb]. rewrite andb_false_r. rewrite (map_ext _ (fun t => t) (fun t => Rmult_1_l t)), map_id. reflexivity.
Qed.
Lemma rresolves q : q = 0 \/ q = 1 -> resolves Int_part (rdata q).
Proof.
  intros HQ r y e E a b A C LT. rewrite (rgrid q HQ) in E. injection E as E _ _. rewrite <- E in A, C. clear E. change (In a (map IZR rx)) in A. change (In b (map IZR rx)) in C. apply in_map_iff in A as (i & <- & _). apply in_map_iff in C as (j & <- & _). rewrite !int_part_IZR. now apply lt_IZR.
Qed.
Lemma rsane : sane rtools 0%Z.
Proof.
  split; [split; intros; cbn [w_rnd t_w rtools rworld]; lia|]. split; [exact isort_ok|]. split; [exact DataClustersExamples.isort_ok|].
  split; [apply Z.eqb_refl|]. split; intros; apply map_length.
Qed.
Lemma rshape : engine_shape rworld fst.
Proof. intros m b c n ps ob out E. injection E as <- <- <-. induction m; constructor; auto. Qed.
Lemma rnonan : engine_no_nan rworld. Proof. intros m b c n ps ob _ p _. reflexivity. Qed.
(** The hypotheses of C116-C118 about peaks and functions. *)
Definition world_ok {P B Q L} (T : xtools P B Q) (owner : P -> nat) (static : P -> bool) (set_owner : P -> nat -> P) (ripples : nat -> bool) (tfunc : nat -> nat) (lab : P -> L) : Prop :=
  (forall o, tfunc o <> o) /\ argsort_ok (w_argsort (t_w T)) /\ engine_shape (t_w T) lab /\ engine_no_nan (t_w T) /\
  (forall p o, owner (set_owner p o) = o) /\ (forall p o, w_removable (t_w T) (set_owner p o) = w_removable (t_w T) p) /\
  (forall p o, w_p_npars (t_w T) false (set_owner p o) = w_p_npars (t_w T) false p) /\
  (forall p q, lab p = lab q -> owner p = owner q /\ static p = static q) /\
  (forall p o, static (set_owner p o) = static p) /\ (forall o, ripples (tfunc o) = true) /\
  (forall p q, lab p = lab q -> lab (set_owner p (tfunc (owner p))) = lab (set_owner q (tfunc (owner q)))).
Lemma rworld_ok : world_ok rtools fst (fun _ => false) rset rripples rtfunc fst.
Proof.
  split; [unfold rtfunc; intros; lia|]. split; [exact isort_ok|]. split; [exact rshape|]. split; [exact rnonan|]. split; [reflexivity|]. split; [reflexivity|]. split; [reflexivity|].
  split; [auto|]. split; [reflexivity|]. split; [unfold rripples, rtfunc; intros; apply Nat.leb_le; lia|]. intros p q H. cbn. unfold rtfunc. congruence.
Qed.
Definition rcluster (m : list rpeak) : cluster rpeak Z :=
  mkC m (Some 0%Z) (mkArr 0 rx) (mkArr 1 ry) (mkArr 2 re) 0 4 false 4 0 [7%nat].
(** Running the whole of extract(): without qmax it finds peak 7; with qmax = 1 and a
    protected peak 8, peak 108. *)
Lemma run_eq q ip : q = 0 \/ q = 1 -> run_r q ip =
  let s0 := clearcalc (rpdf q ip) in
  match
    (odo c <- extract rtools 0%Z 2 0 [7%nat] 4 1 rx ry re ip;
     odo c1 <- (if Rltb 0 q then
       odo m <- lift (wrap_all fst (fun _ => false) rset rripples rtfunc (c_model c));
       odo c2 <- lift (make_cluster rworld m (c_base c) (mkArr 3 rx) (mkArr 4 ry) (mkArr 5 re) None 0 [7%nat]);
       match prune rworld (t_qk rtools) (t_qargmax rtools) (S (length (c_model c2))) c2 with
       | None => None
       | Some (_, Err e) => Some (Err e)
       | Some (m2, Ok _) => Some (Ok (set_model c2 m2))
       end else Some (Ok c));
     let f := fit rworld c1 false 0 true true in
     match fr_out f with Err e => Some (Err e) | Ok _ => Some (Ok (fr_c f)) end)
  with
  | None => (s0, None)
  | Some (Err e) => (with_baseline s0 (fst (run_owned q ip)), Some (Err e))
  | Some (Ok c) => (with_result (with_baseline s0 (fst (run_owned q ip))) (Some c) (Some "extract"%string), Some (Ok tt))
  end.
Proof.
  intros HQ. unfold run_r, PdfExtract.pdf_extract. cbv zeta. fold (run_owned q ip). generalize (run_owned q ip). intros ow. unfold PdfExtract.model_of. change (p_data (clearcalc (rpdf q ip))) with (rdata q).
  destruct (raw_ok _ (rusable q)) as (x0 & xn & _ & _ & ER & _). rewrite ER, (rgrid q HQ). cbn [lift obind]. rewrite !int_parts. unfold PdfExtract.with_ripples.
  unfold arr. rewrite !int_parts. reflexivity.
Qed.
Lemma lt01 : Rltb 0 1 = true. Proof. apply Rltb_spec; lra. Qed.
Lemma lt00 : Rltb 0 0 = false. Proof. destruct (Rltb 0 0) eqn:E; [apply Rltb_spec in E; lra|reflexivity]. Qed.
Example C118_nonvacuous :
  world_ok rtools fst (fun _ => false) rset rripples rtfunc fst /\ sane rtools 0%Z /\ usable (rdata 0) /\ usable (rdata 1) /\ resolves Int_part (rdata 0) /\ resolves Int_part (rdata 1) /\
  (exists s', run_r 0 [] = (s', Some (Ok tt)) /\ exists c, p_extracted s' = Some c /\ c_model c = [(7%nat, true)]) /\
  (exists s', run_r 1 [(8%nat, false)] = (s', Some (Ok tt)) /\ exists c, p_extracted s' = Some c /\ c_model c = [(108%nat, false)]).
Proof.
  split; [exact rworld_ok|]. split; [exact rsane|]. split; [apply rusable|]. split; [apply rusable|]. split; [apply rresolves; auto|]. split; [apply rresolves; auto|]. split.
  - rewrite run_eq by auto. rewrite lt00. match goal with |- context [match ?t with None => _ | Some _ => _ end] => let v := eval vm_compute in t in change t with v end.
    eexists. split; [reflexivity|]. eexists. split; reflexivity.
  - rewrite run_eq by auto. rewrite lt01. match goal with |- context [match ?t with None => _ | Some _ => _ end] => let v := eval vm_compute in t in change t with v end.
    eexists. split; [reflexivity|]. eexists. split; reflexivity.
Qed.

(** ** C121: when every peak has been pruned the last fit estimates a new one, without ripples *)
Theorem C121_all_peaks_have_ripples_refuted :
  world_ok rtools fst (fun _ => false) rset rripples rtfunc fst /\ sane rtools 0%Z /\ usable (rdata 1) /\ resolves Int_part (rdata 1) /\ 0 < d_qmax (rdata 1) /\
  exists s' c, run_r 1 [] = (s', Some (Ok tt)) /\ p_extracted s' = Some c /\ c_model c = [(7%nat, true)] /\ rripples 7 = false.
Proof.
  split; [exact rworld_ok|]. split; [exact rsane|]. split; [apply rusable|]. split; [apply rresolves; auto|]. split; [cbn; lra|].
  rewrite run_eq by auto. rewrite lt01. match goal with |- context [match ?t with None => _ | Some _ => _ end] => let v := eval vm_compute in t in change t with v end.
  eexists _, _. split; [reflexivity|]. split; [reflexivity|]. split; reflexivity.
Qed.

(** C119 and C120 on the same data, with an engine that works and with one that fails after
    having changed the peaks and the baseline. *)
Lemma rfit_grid : fit_grid (rdata 0) = Ok (map IZR rx, map IZR ry, map IZR re).
Proof.
  rewrite <- (rgrid 0) by auto. unfold fit_grid, extract_grid. destruct (raw_ok _ (rusable 0)) as (x0 & xn & _ & _ & ER & _). rewrite ER. cbn [bind].
  destruct (range_ok _ (rusable 0)) as (a & r & y & e & EI & _). rewrite EI. cbn [bind]. change (d_qmax (rdata 0)) with 0. destruct (Req_EM_T 0 0); [reflexivity|contradiction].
Qed.
Definition failing_world : world rpeak Z Z :=
  mkWorld (fun x => x) (fun p => Some 1%Z) snd (fun _ => false)
    (fun _ r => map (fun _ => 0%Z) r) (fun cf p => 3%nat) (fun cf b => 1%nat) (fun b r => map (fun _ => b) r) Z.eqb ModelClusterProofs.isort (fun _ => 3%nat)
    rquality Z.ltb (fun _ c _ => false) (fun c => Ok (Some (7%nat, true)))
    (fun m b _ _ => ((map (fun p => (S (fst p), snd p)) m, option_map Z.succ b), Err FitError)) (fun a b => ((a + b) / 2)%Z) (fun _ _ m => m).
Definition failing_tools : xtools rpeak Z Z :=
  mkTools failing_world (fun c _ => rquality c) zargmax DataClustersExamples.isort (fun _ n => Z.of_nat n) (fun z => (z / 20 + 1)%Z).
Example C119_nonvacuous : exists s' c, PdfExtract.pdf_fit rtools Int_part (rpdf 0 [(5%nat, true)]) = (s', Ok tt) /\ p_extracted s' = Some c /\ c_model c = [(5%nat, true)].
Proof.
  unfold PdfExtract.pdf_fit, fit_model. cbn [clearcalc with_result p_data rpdf]. rewrite rfit_grid. cbn [bind]. unfold arr. rewrite !int_parts. cbn [p_ip p_bl p_em p_pf].
  match goal with |- context [bind ?t _] => let v := eval vm_compute in t in change t with v end. cbn [bind].
  match goal with |- context [fit ?a ?b ?c ?d ?e ?f] => let v := eval vm_compute in (fit a b c d e f) in change (fit a b c d e f) with v end.
  eexists _, _. split; [reflexivity|]. split; reflexivity.
Qed.
Example C120_witness : exists s' c, PdfExtract.pdf_fit failing_tools Int_part (rpdf 0 [(5%nat, true)]) = (s', Ok tt) /\
  p_extracted s' = Some c /\ c_model c = [(5%nat, true)] /\ p_ip s' = [(6%nat, true)] /\ p_bl s' = 1%Z.
Proof.
  destruct (C120_initial_peaks_unchanged_refuted failing_tools Int_part (rpdf 0 [(5%nat, true)]) (map IZR rx) (map IZR ry) (map IZR re)
    (mkC [(5%nat, true)] (Some 0%Z) (mkArr 0 rx) (mkArr 1 ry) (mkArr 2 re) 0 4 false 0 0 [7%nat]) [(6%nat, true)] (Some 1%Z) 1%Z) as (s' & c & A1 & A2 & A3 & A4 & A5 & A6).
  - exact rfit_grid.
  - discriminate.
  - cbn; lia.
  - unfold arr. rewrite !int_parts. vm_compute. reflexivity.
  - reflexivity.
  - vm_compute. reflexivity.
  - reflexivity.
  - exists s', c. auto 10.
Qed.
Print Assumptions C114_extract_result_only_on_success.
Print Assumptions C114_fit_result_only_on_success.
Print Assumptions C115_extraction_grid.
Print Assumptions C115_extraction_data.
Print Assumptions C115_fit_grid.
Print Assumptions C116_extracted_model.
Print Assumptions C117_ripples.
Print Assumptions C118_protected_initial_peaks_survive.
Print Assumptions C119_fit_model.
Print Assumptions C120_initial_peaks_unchanged_refuted.
Print Assumptions C121_all_peaks_have_ripples_refuted.

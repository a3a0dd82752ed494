(** Properties C130-C134: setdata, loadpdf and the estimation of a baseline. *)
From Coq Require Import Reals Lra String Sorted.
From Verif Require Import Prelude Evaluators EvaluatorsProps Vars VarsProps.
Open Scope R_scope.

(** ** Specification *)
(** The values of [y] at the points of [x] in the range. *)
Definition values_in_range (lo hi : R) (x y : list R) : list R := map snd (filter (fun p => in_range lo hi (fst p)) (combine x y)).
(** The given sequence, or zeros. *)
Definition or_zeros (n : nat) (d : option (list R)) : list R := match d with Some l => l | None => repeat 0 n end.

Lemma filter_slice {A} (p : A -> bool) (l : list A) : forall a b, (forall i v, nth_error l i = Some v -> ((a <= i < b)%nat <-> p v = true)) ->
  filter p l = firstn (b - a) (skipn a l).
Proof.
  induction l as [|v l IH]; intros a b H; [now rewrite skipn_nil, firstn_nil|].
  pose proof (H 0%nat v eq_refl) as H0.
  assert (R : forall a' b', (forall i w, nth_error l i = Some w -> ((a' <= i < b')%nat <-> (a <= S i < b)%nat)) -> filter p l = firstn (b' - a') (skipn a' l)).
  { intros a' b' E. apply IH. intros i w Hw. rewrite (E i w Hw). apply (H (S i) w Hw). }
  cbn [filter]. destruct a as [|a].
  - destruct b as [|b].
    + destruct (p v); [exfalso; destruct H0 as [_ H0]; specialize (H0 eq_refl); lia|]. rewrite (R 0%nat 0%nat) by (intros; lia). reflexivity.
    + destruct (p v); [|exfalso; destruct H0 as [H0 _]; assert (false = true) by (apply H0; lia); discriminate]. cbn [skipn Nat.sub firstn]. f_equal. rewrite (R 0%nat b) by (intros; lia). now rewrite Nat.sub_0_r.
  - destruct (p v); [exfalso; destruct H0 as [_ H0]; specialize (H0 eq_refl); lia|]. cbn [skipn]. rewrite (R a (b - 1)%nat) by (intros; lia). now replace (b - 1 - a)%nat with (b - S a)%nat by lia.
Qed.
Lemma combine_slice {A B} (x : list A) : forall (y : list B) a n, length y = length x -> map snd (firstn n (skipn a (combine x y))) = firstn n (skipn a y).
Proof.
  induction x as [|u x IH]; intros [|v y] a n L; try discriminate; [now rewrite !skipn_nil, !firstn_nil|]. injection L as L. cbn [combine].
  destruct a as [|a]; cbn [skipn]; [|now apply IH]. destruct n as [|n]; [reflexivity|]. cbn [firstn map snd]. f_equal. apply (IH y 0%nat n L).
Qed.
(** The slice of [y] that goes with the points in the range. *)
Lemma slice_values x y lo hi a b : length y = length x ->
  (forall i v, nth_error x i = Some v -> ((a <= i < b)%nat <-> lo <= v <= hi)) ->
  take_slice y (a, Z.of_nat b) = values_in_range lo hi x y.
Proof.
  intros L H. unfold take_slice, values_in_range. cbn [fst snd]. rewrite Nat2Z.id. rewrite (filter_slice _ (combine x y) a b); [now rewrite combine_slice|].
  intros i [u v] E. assert (EU : nth_error x i = Some u).
  { clear - E L. revert y i E L. induction x as [|u' x IH]; intros [|v' y] [|i] E L; try discriminate; [injection E as -> _; reflexivity|]. cbn in *. apply (IH y i E). now injection L. }
  rewrite (H i u EU). cbn [fst]. unfold in_range. rewrite andb_true_iff, !Rleb_spec. reflexivity.
Qed.

Section Load.
Context {F BF BL EM PK X : Type}.
Variable L : lib F BF BL EM PK.
Notation value := (value F BF BL EM PK X).
Notation obj := (obj F BF BL EM PK X).
Open Scope string_scope.

(** loadpdf, pdfpeakextraction.py:73-90: [d] is the data set given or read (or the exception
    of the reader), [file] the path if a name was given. *)
Definition loadpdf (d : result (list R * list R * list R * list R * R)) (file : option string) (o : obj) : obj * result unit :=
  let o1 := pdf_clear o in
  match d with
  | Err e => (o1, Err e)
  | Ok (x, y, dx, dy, q) =>
    let o2 := match file with None => o1 | Some f => setattr o1 "filename" (VStr f) end in
    match pdf_setdata L o2 x y (Some dx) (Some dy) with
    | (o3, Err e) => (o3, Err e)
    | (o3, Ok _) => (setattr o3 "qmax_reportedbypdf" (VNum q), Ok tt)
    end
  end.

(** *** C130 *)
(** Both classes: accepted exactly if all lengths agree; then the data are the given ones
    (zeros for missing uncertainties) and no setting changes but the qmax found in the data;
    with different lengths of x and y nothing changes. *)
Theorem C130_setdata :
  forall (o : obj) x y dx dy,
    let ok := length y = length x /\ length (or_zeros (length x) dx) = length x /\ length (or_zeros (length x) dy) = length x in
    (ok -> exists o', setdata o x y dx dy = (o', Ok tt) /\ o_x o' = Some x /\ o_y o' = y /\ o_dx o' = or_zeros (length x) dx /\ o_dy o' = or_zeros (length x) dy /\
                      (forall k, o_attr o' k = o_attr o k)) /\
    (ok -> exists o', pdf_setdata L o x y dx dy = (o', Ok tt) /\ o_x o' = Some x /\ o_y o' = y /\ o_dx o' = or_zeros (length x) dx /\ o_dy o' = or_zeros (length x) dy /\
                      (forall k, k <> "qmax_fromdata" -> o_attr o' k = o_attr o k) /\
                      (forall q, find_qmax L x y = Ok q -> o_attr o' "qmax_fromdata" = VNum q)) /\
    (~ ok -> snd (setdata o x y dx dy) = Err ValueError /\ snd (pdf_setdata L o x y dx dy) = Err ValueError) /\
    (length y <> length x -> fst (setdata o x y dx dy) = o /\ fst (pdf_setdata L o x y dx dy) = o).
Proof.
  intros o x y dx dy ok.
  assert (Z : forall d, match d with None => zeros (length x) | Some d => d end = or_zeros (length x) d) by (intros [d|]; reflexivity).
  assert (S : ok -> setdata o x y dx dy = (mkObj (o_attr o) (Some x) y (or_zeros (length x) dx) (or_zeros (length x) dy), Ok tt)).
  { intros (A & B & C). unfold setdata. rewrite !Z, A, B, C, !Nat.eqb_refl. reflexivity. }
  assert (NS : ~ ok -> snd (setdata o x y dx dy) = Err ValueError).
  { intros N. unfold setdata. rewrite !Z. destruct (Nat.eqb_spec (length x) (length y)) as [E1|]; [|reflexivity]. cbn [negb].
    destruct (Nat.eqb_spec (length x) (length (or_zeros (length x) dx))) as [E2|]; [|reflexivity]. destruct (Nat.eqb_spec (length x) (length (or_zeros (length x) dy))) as [E3|]; [|reflexivity].
    exfalso. apply N. repeat split; congruence. }
  split; [intros H; eexists; split; [apply S, H|]; repeat split|]. split.
  { intros H. unfold pdf_setdata. rewrite (S H). destruct (find_qmax L x y) as [q|e]; eexists; (split; [reflexivity|]).
    - cbn. repeat split; [|intros q' [= ->]; reflexivity]. intros k N. destruct (String.eqb_spec k "qmax_fromdata"); [contradiction|reflexivity].
    - cbn. repeat split. intros q' C. discriminate. }
  split.
  { intros N. specialize (NS N). split; [exact NS|]. unfold pdf_setdata. destruct (setdata o x y dx dy) as [o' [u|e]]; [discriminate|]. exact NS. }
  intros N. assert (E : setdata o x y dx dy = (o, Err ValueError)). { unfold setdata. destruct (Nat.eqb_spec (length x) (length y)); [congruence|reflexivity]. }
  unfold pdf_setdata. rewrite E. split; reflexivity.
Qed.

(** *** C131 *)
(** A rejected call (uncertainties of the wrong length) has replaced the data. *)
Theorem C131_rejected_data_are_kept_refuted :
  forall (o : obj) x y dx dy, length y = length x ->
    length (or_zeros (length x) dx) <> length x \/ length (or_zeros (length x) dy) <> length x ->
    exists o', setdata o x y dx dy = (o', Err ValueError) /\ o_x o' = Some x /\ o_y o' = y /\ o_dx o' = or_zeros (length x) dx /\ o_dy o' = or_zeros (length x) dy.
Proof.
  intros o x y dx dy A B. exists (mkObj (o_attr o) (Some x) y (or_zeros (length x) dx) (or_zeros (length x) dy)). split; [|repeat split]. unfold setdata.
  assert (Z : forall d, match d with None => zeros (length x) | Some d => d end = or_zeros (length x) d) by (intros [d|]; reflexivity). rewrite !Z, A, Nat.eqb_refl. cbn [negb].
  destruct B as [B|B]; apply not_eq_sym, Nat.eqb_neq in B; rewrite B; cbn [negb orb]; [reflexivity|]. now rewrite orb_true_r.
Qed.
(** Settings and results that belong to the previous data survive new data and defaultvars:
    uncertainties of any length, the range, the previous result, and the previous qmax if
    none is found. *)
Theorem C131_settings_of_previous_data_refuted :
  forall (o o' o'' : obj) x y dx dy e lo hi r,
    o_attr o "effective_dy" = VArr e -> o_attr o "rng" = VRng (Some lo) (Some hi) ->
    pdf_setdata L o x y dx dy = (o', Ok tt) -> pdf_defaultvars L [] o' = (o'', r) ->
    o_x o'' = Some x /\ o_attr o'' "effective_dy" = VArr e /\ o_attr o'' "rng" = VRng (Some lo) (Some hi) /\
    o_attr o'' "extracted" = o_attr o "extracted" /\
    (forall err, find_qmax L x y = Err err -> o_attr o'' "qmax_fromdata" = o_attr o "qmax_fromdata").
Proof.
  intros o o' o'' x y dx dy e lo hi r HE HR HS HD.
  assert (SD : o_x o' = Some x /\ (forall k, k <> "qmax_fromdata" -> o_attr o' k = o_attr o k) /\ (forall err, find_qmax L x y = Err err -> o_attr o' "qmax_fromdata" = o_attr o "qmax_fromdata")).
  { destruct (C130_setdata o x y dx dy) as (_ & A & B & _). cbn zeta in A, B.
    destruct (Nat.eq_dec (length y) (length x)) as [E1|N]; [|destruct B as [_ B]; [tauto|]; rewrite HS in B; discriminate].
    destruct (Nat.eq_dec (length (or_zeros (length x) dx)) (length x)) as [E2|N]; [|destruct B as [_ B]; [tauto|]; rewrite HS in B; discriminate].
    destruct (Nat.eq_dec (length (or_zeros (length x) dy)) (length x)) as [E3|N]; [|destruct B as [_ B]; [tauto|]; rewrite HS in B; discriminate].
    destruct (A (conj E1 (conj E2 E3))) as (o1 & H1 & H2 & H3 & H4 & H5 & H6 & H7). rewrite HS in H1. injection H1 as <-. split; [exact H2|]. split; [exact H6|].
    intros err Q. revert HS. unfold pdf_setdata. destruct (setdata o x y dx dy) as [o1 [u|e1]] eqn:ES; [|discriminate]. rewrite Q. intros [= <-].
    unfold setdata in ES. destruct (negb _); [discriminate|]. destruct (_ || _)%bool; [discriminate|]. injection ES as <-. reflexivity. }
  destruct SD as (S1 & S2 & S3). destruct (C48_pdf_explicit_settings_survive L [] o' o'' r HD) as ((D1 & _) & K1 & K2).
  split; [congruence|]. 
  assert (NI : forall k v, k <> "baseline" -> v <> VNone -> (k = "effective_dy" -> exists l, v = VArr l) -> (k = "rng" -> exists a b, v = VRng (Some a) (Some b)) -> ~ incomplete (F:=F) (BF:=BF) (BL:=BL) (EM:=EM) (PK:=PK) (X:=X) k v).
  { intros k v N1 N2 N3 N4 [C|[(C & d & C' & _)|[(C & a & b & C' & C2)|(C & _)]]]; [contradiction| | |contradiction].
    - destruct (N3 C) as (l & ->). discriminate.
    - destruct (N4 C) as (a' & b' & ->). injection C' as <- <-. destruct C2; discriminate. }
  split; [rewrite K2; [rewrite S2, HE by discriminate; reflexivity|intros []|intros [_ []]|]|].
  { rewrite S2, HE by discriminate. apply NI; try discriminate. eauto. }
  split; [rewrite K2; [rewrite S2, HR by discriminate; reflexivity|intros []|intros [_ []]|]|].
  { rewrite S2, HR by discriminate. apply NI; try discriminate. eauto. }
  assert (NV : forall k, ~ In k pdf_vars -> o_attr o'' k = o_attr o' k) by exact K1.
  split; [rewrite NV by (cbn; intuition discriminate); apply S2; discriminate|]. intros err Q. rewrite NV by (cbn; intuition discriminate). now apply (S3 err).
Qed.
(** *** C132 *)
Lemma first_steps args (o : obj) x0 rest : let x := (x0 :: rest)%list in o_x o = Some x -> o_y o <> []%list -> rng_typed (o_attr o "rng") ->
  exists o4, o_x o4 = Some x /\ o_y o4 = o_y o /\ o_attr o4 "baseline" = o_attr o "baseline" /\
    defaultvars L args o = seq_steps [step_estimate L; step_const "baseline" (VBase (zero_bl L)) args; step_const "error_method" (VErr (aic L)) args; step_const "initial_peaks" (VPeaks (no_peaks L)) args] o4 /\
    (o_attr o "rng" = VNone \/ In "rng" args -> o_attr o4 "rng" = VRng (Some x0) (Some (last x x0))) /\
    (forall lo hi, ~ In "rng" args -> o_attr o "rng" = VRng lo hi ->
       o_attr o4 "rng" = VRng (Some (match lo with None => x0 | Some v => v end)) (Some (match hi with None => last x x0 | Some v => v end))).
Proof.
  intros x OX OY OR.
  assert (S1 : exists o1, step_cres args o = (o1, Ok tt)) by (unfold step_cres, with_x, first_last; rewrite OX; destruct (wanted _ _ _); eexists; reflexivity).
  destruct S1 as (o1 & S1). destruct (touches_cres _ _ _ _ S1) as ((X1 & Y1 & _) & T1 & _).
  assert (S2 : exists o2, step_edy args o1 = (o2, Ok tt)).
  { unfold step_edy, with_x. rewrite X1, OX, Y1. destruct (wanted _ _ _); [destruct (forallb _ _); [eexists; reflexivity|]; destruct (o_y o); [contradiction|eexists; reflexivity]|].
    destruct (o_attr o1 "effective_dy"); try (eexists; reflexivity). destruct (Rltb 0 v); eexists; reflexivity. }
  destruct S2 as (o2 & S2). destruct (touches_edy _ _ _ _ S2) as ((X2 & Y2 & _) & T2 & _).
  assert (S3 : exists o3, step_pf L args o2 = (o3, Ok tt)) by (unfold step_pf, with_x, first_last; rewrite X2, X1, OX; destruct (wanted _ _ _); eexists; reflexivity).
  destruct S3 as (o3 & S3). destruct (touches_pf L _ _ _ _ S3) as ((X3 & Y3 & _) & T3 & _).
  assert (BR : o_attr o3 "rng" = o_attr o "rng") by (rewrite T3, T2, T1 by discriminate; reflexivity).
  assert (OX3 : o_x o3 = Some x) by congruence.
  assert (S4 : exists o4, step_rng args o3 = (o4, Ok tt) /\ (o_attr o "rng" = VNone \/ In "rng" args -> o_attr o4 "rng" = VRng (Some x0) (Some (last x x0))) /\
    (forall lo hi, ~ In "rng" args -> o_attr o "rng" = VRng lo hi ->
       o_attr o4 "rng" = VRng (Some (match lo with None => x0 | Some v => v end)) (Some (match hi with None => last x x0 | Some v => v end)))).
  { unfold step_rng, with_x, first_last. rewrite OX3. unfold x. destruct (wanted args o3 "rng") eqn:W.
    - eexists. split; [reflexivity|]. rewrite attr_same. split; [reflexivity|]. intros lo hi N1 N2. exfalso. apply wanted_true in W as [W|W]; [congruence|contradiction].
    - apply wanted_false in W as [W1 W2]. destruct OR as [OR|(lo & hi & OR)]; [congruence|]. rewrite BR, OR.
      destruct lo as [lo|], hi as [hi|]; eexists; (split; [reflexivity|]); (split; [intros [C|C]; [congruence|contradiction]|]); intros lo' hi' _ [= <- <-]; rewrite ?attr_same; congruence. }
  destruct S4 as (o4 & S4 & R1 & R2). destruct (touches_rng _ _ _ _ S4) as ((X4 & Y4 & _) & T4 & _). exists o4.
  split; [congruence|]. split; [congruence|]. split; [rewrite T4, T3, T2, T1 by discriminate; reflexivity|]. split; [|split; assumption].
  unfold defaultvars. rewrite seq_steps_cons, S1, seq_steps_cons, S2, seq_steps_cons, S3, seq_steps_cons, S4. reflexivity.
Qed.
(** A baseline function is replaced by the baseline estimated from exactly the points in the
    range; if it cannot estimate, by the zero baseline; other exceptions escape and leave
    it. *)
Theorem C132_baseline_estimation :
  forall (args : list string) (o : obj) (x0 : R) (rest : list R) (f : BF) (lo hi : R), let x := (x0 :: rest)%list in
    o_x o = Some x -> StronglySorted Rle x -> length (o_y o) = length x ->
    o_attr o "baseline" = VBaseFn f -> ~ In "baseline" args ->
    (* the range in effect *)
    (o_attr o "rng" = VNone \/ In "rng" args) /\ rng_typed (o_attr o "rng") /\ lo = x0 /\ hi = last x x0 \/
    ~ In "rng" args /\ (exists mlo mhi, o_attr o "rng" = VRng mlo mhi /\ lo = match mlo with None => x0 | Some v => v end /\ hi = match mhi with None => last x x0 | Some v => v end) ->
    lo <= last x x0 -> x0 <= hi ->
    match estimate_bl L f (filter (in_range lo hi) x) (values_in_range lo hi x (o_y o)) with
    | Ok b => exists o', defaultvars L args o = (o', Ok tt) /\ o_attr o' "baseline" = VBase b
    | Err NotImplementedErr => exists o', defaultvars L args o = (o', Ok tt) /\ o_attr o' "baseline" = VBase (zero_bl L)
    | Err EstimationError => exists o', defaultvars L args o = (o', Ok tt) /\ o_attr o' "baseline" = VBase (zero_bl L)
    | Err e => exists o', defaultvars L args o = (o', Err e) /\ o_attr o' "baseline" = VBaseFn f
    end.
Proof.
  intros args o x0 rest f lo hi x OX HS LY HB NB HR H1 H2.
  assert (OY : o_y o <> []%list) by (intros C; rewrite C in LY; discriminate).
  assert (RT : rng_typed (o_attr o "rng")) by (destruct HR as [(_ & H & _)|(_ & mlo & mhi & H & _)]; [exact H|right; eauto]).
  destruct (first_steps args o x0 rest OX OY RT) as (o4 & X4 & Y4 & B4 & E & R1 & R2). fold x in X4, R1, R2.
  assert (R4 : o_attr o4 "rng" = VRng (Some lo) (Some hi)).
  { destruct HR as [(W & _ & -> & ->)|(W & mlo & mhi & W2 & -> & ->)]; [now apply R1|now apply R2]. }
  rewrite E, seq_steps_cons. unfold step_estimate, with_x. rewrite B4, HB, R4, X4, Y4.
  destruct (C46_exactly_the_points_in_range x0 rest lo hi HS H1 H2) as (a & b & G & TS & IX). fold x in G, TS, IX. rewrite G, TS. rewrite (slice_values x (o_y o) lo hi a b LY IX).
  assert (FIN : forall q : obj, (forall v, o_attr q "baseline" = VBase v -> exists o', seq_steps [step_const "baseline" (VBase (zero_bl L)) args; step_const "error_method" (VErr (aic L)) args; step_const "initial_peaks" (VPeaks (no_peaks L)) args] q = (o', Ok tt) /\ o_attr o' "baseline" = VBase v) /\
     (o_attr q "baseline" = VNone -> exists o', seq_steps [step_const "baseline" (VBase (zero_bl L)) args; step_const "error_method" (VErr (aic L)) args; step_const "initial_peaks" (VPeaks (no_peaks L)) args] q = (o', Ok tt) /\ o_attr o' "baseline" = VBase (zero_bl L))).
  { assert (C : forall k v (q : obj), exists q', step_const k v args q = (q', Ok tt)) by (intros k v q; unfold step_const; destruct (wanted _ _ _); eexists; reflexivity).
    assert (TL : forall q : obj, exists o', seq_steps [step_const "error_method" (VErr (aic L)) args; step_const "initial_peaks" (VPeaks (no_peaks L)) args] q = (o', Ok tt) /\ o_attr o' "baseline" = o_attr q "baseline").
    { intros q. destruct (C "error_method" (VErr (aic L)) q) as (q1 & S1). destruct (C "initial_peaks" (VPeaks (no_peaks L)) q1) as (q2 & S2).
      destruct (touches_const _ _ _ _ _ _ S1) as (_ & T1 & _). destruct (touches_const _ _ _ _ _ _ S2) as (_ & T2 & _). exists q2. split; [|rewrite T2, T1 by discriminate; reflexivity].
      rewrite seq_steps_cons, S1, seq_steps_cons, S2. reflexivity. }
    intros q. split.
    - intros v Hv. rewrite seq_steps_cons. unfold step_const at 1. assert (W : wanted args q "baseline" = false) by (apply wanted_no; [exact NB|]; rewrite Hv; intros [H|[(H & _)|[(H & _)|(_ & g & H)]]]; discriminate).
      rewrite W. destruct (TL q) as (o' & T1 & T2). exists o'. split; [exact T1|congruence].
    - intros Hv. rewrite seq_steps_cons. unfold step_const at 1. assert (W : wanted args q "baseline" = true) by (unfold wanted; now rewrite Hv).
      rewrite W. destruct (TL (setattr q "baseline" (VBase (zero_bl L)))) as (o' & T1 & T2). exists o'. split; [exact T1|]. now rewrite T2, attr_same. }
  destruct (estimate_bl L f _ _) as [bl|e]; [apply FIN, attr_same|].
  destruct e; first [apply FIN, attr_same | exists o4; split; [reflexivity|congruence]].
Qed.

(** *** C133 *)
Theorem C133_loadpdf :
  forall (o : obj) d file,
    (* a reader that fails leaves an empty object *)
    (forall e, d = Err e -> loadpdf d file o = (pdf_clear o, Err e)) /\
    (* data with matching lengths are loaded; of the old object nothing is left *)
    (forall x y dx dy q, d = Ok (x, y, dx, dy, q) -> length y = length x -> length dx = length x -> length dy = length x ->
      exists o', loadpdf d file o = (o', Ok tt) /\ o_x o' = Some x /\ o_y o' = y /\ o_dx o' = dx /\ o_dy o' = dy /\
        o_attr o' "qmax_reportedbypdf" = VNum q /\
        o_attr o' "qmax_fromdata" = match find_qmax L x y with Ok q' => VNum q' | Err _ => VNone end /\
        o_attr o' "filename" = match file with Some f => VStr f | None => VNone end /\
        (forall k, In k pdf_vars -> o_attr o' k = VNone) /\ o_attr o' "extracted" = VNone /\ o_attr o' "extraction_type" = VNone).
Proof.
  intros o d file. split; [intros e ->; reflexivity|]. intros x y dx dy q -> L1 L2 L3. unfold loadpdf.
  set (o2 := match file with None => pdf_clear o | Some f => setattr (pdf_clear o) "filename" (VStr f) end).
  destruct (C130_setdata o2 x y (Some dx) (Some dy)) as (_ & A & _). destruct A as (o3 & S1 & S2 & S3 & S4 & S5 & S6 & S7); [repeat split; assumption|].
  rewrite S1. eexists. split; [reflexivity|]. cbn [o_x o_y o_dx o_dy setattr]. split; [exact S2|]. split; [exact S3|]. split; [exact S4|]. split; [exact S5|].
  destruct (C47_clear o) as (_ & PV & _ & _ & _ & _ & CL & _).
  assert (A2 : forall k, k <> "filename" -> In k cleared_pdf -> o_attr o2 k = VNone).
  { intros k N I. unfold o2. destruct file; [rewrite attr_other by exact N|]; now apply CL. }
  assert (A3 : forall k, ~ In k ["filename"; "qmax_fromdata"; "qmax_reportedbypdf"] -> In k cleared_pdf -> o_attr (setattr o3 "qmax_reportedbypdf" (VNum q)) k = VNone).
  { intros k N I. rewrite attr_other by (intros ->; apply N; cbn; tauto). rewrite S6 by (intros ->; apply N; cbn; tauto). apply A2; [intros ->; apply N; cbn; tauto|exact I]. }
  split; [apply (attr_same o3)|]. split.
  { change (o_attr (setattr o3 "qmax_reportedbypdf" (VNum q)) "qmax_fromdata" = match find_qmax L x y with Ok q' => VNum q' | Err _ => VNone end). rewrite attr_other by discriminate.
    destruct (find_qmax L x y) as [q'|e] eqn:Q; [now apply S7|]. clear - S1 Q A2 L1 L2 L3. revert S1. unfold pdf_setdata, setdata. rewrite L1, L2, L3, Nat.eqb_refl. cbn [negb orb]. rewrite Q. intros [= <-]. cbn [o_attr].
    apply A2; [discriminate|]. unfold cleared_pdf. cbn. tauto. }
  split.
  { change (o_attr (setattr o3 "qmax_reportedbypdf" (VNum q)) "filename" = match file with Some f => VStr f | None => VNone end). rewrite attr_other, S6 by discriminate. unfold o2. destruct file; [apply attr_same|].
    apply CL. unfold cleared_pdf. cbn. tauto. }
  split; [|split].
  - intros k I. apply (A3 k); [|now apply PV]. intros N. cbn in N. destruct N as [<-|[<-|[<-|[]]]]; revert I; cbn; intuition discriminate.
  - apply (A3 "extracted"); [cbn; intuition discriminate|]. unfold cleared_pdf, cleared_base. cbn. tauto.
  - apply (A3 "extraction_type"); [cbn; intuition discriminate|]. unfold cleared_pdf, cleared_base. cbn. tauto.
Qed.

(** *** C134 *)
(** A data set without qmax has qmax 0 (pdfdataset.py:132-133), so the value found in the
    data is never used after loadpdf: qmax is 0, and there are no termination ripples. *)
Theorem C134_qmax_from_data_refuted :
  forall (o o' o'' : obj) x0 rest y dx dy file q', 
    loadpdf (Ok ((x0 :: rest)%list, y, dx, dy, 0)) file o = (o', Ok tt) -> find_qmax L (x0 :: rest)%list y = Ok q' ->
    pdf_defaultvars L [] o' = (o'', Ok tt) ->
    o_attr o' "qmax_fromdata" = VNum q' /\ o_attr o'' "qmax" = VNum 0 /\ o_attr o'' "nyquist" = VBool false.
Proof.
  intros o o' o'' x0 rest y dx dy file q' HL HQ HD.
  assert (LEN : length y = length (x0 :: rest) /\ length dx = length (x0 :: rest) /\ length dy = length (x0 :: rest)).
  { revert HL. unfold loadpdf. set (o2 := match file with None => _ | Some _ => _ end). destruct (pdf_setdata L o2 (x0 :: rest) y (Some dx) (Some dy)) as [o3 [u|e]] eqn:S; [|discriminate]. intros _.
    destruct (C130_setdata o2 (x0 :: rest) y (Some dx) (Some dy)) as (_ & _ & B & _). rewrite S in B. cbn [or_zeros snd] in B.
    destruct (Nat.eq_dec (length y) (length (x0 :: rest))) as [E1|N]; [|destruct B as [_ B]; [tauto|discriminate]].
    destruct (Nat.eq_dec (length dx) (length (x0 :: rest))) as [E2|N]; [|destruct B as [_ B]; [tauto|discriminate]].
    destruct (Nat.eq_dec (length dy) (length (x0 :: rest))) as [E3|N]; [|destruct B as [_ B]; [tauto|discriminate]]. auto. }
  destruct LEN as (L1 & L2 & L3). destruct (C133_loadpdf o (Ok ((x0 :: rest)%list, y, dx, dy, 0)) file) as (_ & LD). destruct (LD _ _ _ _ _ eq_refl L1 L2 L3) as (o1 & E & X1 & _ & _ & _ & QR & QF & _ & CV & _).
  rewrite HL in E. injection E as <-. rewrite HQ in QF. split; [exact QF|].
  destruct (C48_pdf_documented_defaults L [] o' o'' x0 rest X1 HD) as (_ & KQ & KN & _).
  assert (Q1 : o_attr o' "qmax" = VNone) by (apply CV; cbn; tauto). specialize (KQ (or_introl Q1)). unfold preferred_qmax in KQ. rewrite QR in KQ. split; [exact KQ|].
  assert (N1 : o_attr o' "nyquist" = VNone) by (apply CV; cbn; tauto). destruct (KN (or_introl N1)) as (q & A & b & B & C). rewrite KQ in A. injection A as <-. rewrite B. f_equal. destruct b; [|reflexivity]. exfalso. destruct C as [C _]. specialize (C eq_refl). lra.
Qed.
End Load.

(** ** Non-vacuity *)
Section Instances.
Open Scope string_scope.
Let xlib : lib R unit R unit unit := mkLib (fun w => w) 0 tt tt (fun _ x _ => Ok (fold_right Rplus 0 x)) (fun _ _ => Ok 20).
Let xobj (a : string -> value R unit R unit unit unit) : obj R unit R unit unit unit := mkObj a (Some [1; 2; 3]) [0; 1; 0] [0; 0; 0] [1; 0; 1].
Let fresh := xobj (fun _ => VNone).
Example C130_nonvacuous :
  exists o', pdf_setdata xlib fresh [1; 2] [3; 4] None (Some [1; 1]) = (o', Ok tt) /\ o_x o' = Some [1; 2] /\ o_dx o' = [0; 0] /\ o_attr o' "qmax_fromdata" = VNum 20.
Proof. eexists. split; [reflexivity|]. repeat split. Qed.
(** Two points, uncertainties for three. *)
Example C131_nonvacuous :
  exists o' o'', let o := setattr (setattr fresh "effective_dy" (VArr [1; 1; 1])) "rng" (VRng (Some 1) (Some 3)) in
    pdf_setdata xlib o [1; 2] [3; 4] None None = (o', Ok tt) /\ pdf_defaultvars xlib [] o' = (o'', Ok tt) /\ o_x o'' = Some [1; 2] /\ o_attr o'' "effective_dy" = VArr [1; 1; 1].
Proof.
  set (o := setattr (setattr fresh "effective_dy" (VArr [1; 1; 1])) "rng" (VRng (Some 1) (Some 3))). cbn zeta.
  assert (S : exists o', pdf_setdata xlib o [1; 2] [3; 4] None None = (o', Ok tt)) by (eexists; reflexivity). destruct S as (o' & S).
  destruct (C48_pdf_succeeds xlib [] o' 1 [2]) as (o'' & E).
  1: { injection S as <-. reflexivity. } 1: { injection S as <-. discriminate. } 1: { injection S as <-. right. eexists _, _. reflexivity. } 1: { injection S as <-. discriminate. }
  1: { injection S as <-. left. reflexivity. } 1: { injection S as <-. left. reflexivity. } 1: { injection S as <-. right. exists 20. reflexivity. }
  exists o', o''. split; [exact S|]. split; [exact E|]. destruct (C131_settings_of_previous_data_refuted xlib o o' o'' [1; 2] [3; 4] None None [1; 1; 1] 1 3 (Ok tt) eq_refl eq_refl S E) as (A & B & _). auto.
Qed.
(** The range [2, None]: the estimate from the points 2 and 3. *)
Example C132_nonvacuous :
  exists o', defaultvars xlib [] (setattr (setattr fresh "baseline" (VBaseFn tt)) "rng" (VRng (Some 2) None)) = (o', Ok tt) /\
    o_attr o' "baseline" = VBase (2 + (3 + 0)).
Proof.
  set (o := setattr (setattr fresh "baseline" (VBaseFn tt)) "rng" (VRng (Some 2) None)).
  pose proof (C132_baseline_estimation xlib [] o 1 [2; 3] tt 2 3) as H. cbn zeta in H.
  assert (S : StronglySorted Rle [1; 2; 3]) by (repeat constructor; lra).
  specialize (H eq_refl S eq_refl eq_refl (fun x => x)). specialize (H (or_intror (conj (fun x => x) (ex_intro _ (Some 2) (ex_intro _ None (conj eq_refl (conj eq_refl eq_refl))))))). specialize (H ltac:(cbn; lra) ltac:(cbn; lra)).
  assert (FI : filter (in_range 2 3) [1; 2; 3] = [2; 3]).
  { cbn [filter]. assert (in_range 2 3 1 = false) as -> by (unfold in_range; rewrite (Rltb_negb 1 2), (proj2 (Rltb_spec 1 2)) by lra; reflexivity).
    assert (in_range 2 3 2 = true) as -> by (unfold in_range; rewrite !(proj2 (Rleb_spec _ _)) by lra; reflexivity). assert (in_range 2 3 3 = true) as -> by (unfold in_range; rewrite !(proj2 (Rleb_spec _ _)) by lra; reflexivity). reflexivity. }
  rewrite FI in H. exact H.
Qed.
(** Three points and qmax 0 in the file. *)
Example C134_nonvacuous :
  exists o' o'', loadpdf xlib (Ok ([1; 2; 3], [0; 1; 0], [0; 0; 0], [1; 1; 1], 0)) (Some "a.gr") fresh = (o', Ok tt) /\ pdf_defaultvars xlib [] o' = (o'', Ok tt) /\
    o_attr o' "qmax_fromdata" = VNum 20 /\ o_attr o'' "qmax" = VNum 0.
Proof.
  destruct (C133_loadpdf xlib fresh (Ok ([1; 2; 3], [0; 1; 0], [0; 0; 0], [1; 1; 1], 0)) (Some "a.gr")) as (_ & H). destruct (H _ _ _ _ _ eq_refl eq_refl eq_refl eq_refl) as (o' & E & X1 & Y1 & _ & _ & QR & QF & _ & CV & _).
  destruct (C48_pdf_succeeds xlib [] o' 1 [2; 3] X1) as (o'' & D).
  1: { rewrite Y1. discriminate. } 1: { left. apply CV. cbn. tauto. } 1: { intros f. rewrite CV by (cbn; tauto). discriminate. } 1: { left. apply CV. cbn. tauto. }
  1: { right. exists 0. exact QR. } 1: { right. exists 20. exact QF. }
  exists o', o''. split; [exact E|]. split; [exact D|]. destruct (C134_qmax_from_data_refuted xlib fresh o' o'' 1 [2; 3] _ _ _ _ 20 E eq_refl D) as (A & B & _). auto.
Qed.
End Instances.

Print Assumptions C130_setdata.
Print Assumptions C131_rejected_data_are_kept_refuted.
Print Assumptions C131_settings_of_previous_data_refuted.
Print Assumptions C132_baseline_estimation.
Print Assumptions C133_loadpdf.
Print Assumptions C134_qmax_from_data_refuted.

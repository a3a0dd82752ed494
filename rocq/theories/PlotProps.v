(** Properties C167-C170: the plotting program. *)
From Coq Require Import Reals Lra String.
From Verif Require Import Prelude DataClustersProofs ResampleProps Serial SerialProps Plot.
Open Scope R_scope.

Lemma Rleb_spec a b : Rleb a b = true <-> a <= b.
Proof. unfold Rleb. destruct (Rle_dec a b); split; intros; auto; discriminate. Qed.
Definition between (pmin pmax : option R) (p : R) : Prop := (forall a, pmin = Some a -> a <= p) /\ (forall b, pmax = Some b -> p <= b).
Lemma within_spec pmin pmax p : within pmin pmax p = true <-> between pmin pmax p.
Proof.
  unfold within, between. rewrite andb_true_iff. split; intros [A B]; split.
  - intros a ->. now apply Rleb_spec.
  - intros b ->. now apply Rleb_spec.
  - destruct pmin as [a|]; [apply Rleb_spec; now apply A|reflexivity].
  - destruct pmax as [b|]; [apply Rleb_spec; now apply B|reflexivity].
Qed.
Lemma flat3 {A B} (a b c : A -> B) l : forall k x, nth_error l k = Some x ->
  nth_error (flat_map (fun p => [a p; b p; c p]) l) (3 * k) = Some (a x) /\
  nth_error (flat_map (fun p => [a p; b p; c p]) l) (3 * k + 1) = Some (b x) /\
  nth_error (flat_map (fun p => [a p; b p; c p]) l) (3 * k + 2) = Some (c x).
Proof.
  induction l as [|y l IH]; intros [|k] x H; try discriminate.
  - injection H as <-. repeat split.
  - destruct (IH k x H) as (A1 & A2 & A3). replace (3 * S k)%nat with (S (S (S (3 * k)))) by lia. cbn [flat_map app nth_error plus]. auto.
Qed.
Lemma flat3_len {A B} (a b c : A -> B) l : length (flat_map (fun p => [a p; b p; c p]) l) = (3 * length l)%nat.
Proof. induction l as [|y l IH]; [reflexivity|]. cbn [flat_map app length]. rewrite IH. lia. Qed.

(** One vertical line from [base] to [base + height] for each position, separated by gaps. *)
Definition drawn_as_stems (base height : R) (ps : list R) (pts : list (option R * R)) : Prop :=
  length pts = (3 * length ps)%nat /\
  forall k p, nth_error ps k = Some p ->
    nth_error pts (3 * k) = Some (Some p, base) /\ nth_error pts (3 * k + 1) = Some (Some p, base + height) /\ nth_error pts (3 * k + 2) = Some (None, base).
Lemma stems_ok base height ps : drawn_as_stems base height ps (stems base height ps).
Proof. unfold stems. split; [apply flat3_len|]. intros k p H. exact (flat3 (fun p => (Some p, base)) (fun p => (Some p, base + height)) (fun _ => (None, base)) ps k p H). Qed.

Theorem C167_comparepositions :
  forall ep ip base yideal yext pmin pmax,
    let c := comparepositions ep ip base yideal yext pmin pmax in
    exists found, drawn_as_stems base yext found (c_found c) /\
      (forall p, In p found <-> In p ep /\ between pmin pmax p) /\ (length found <= length ep)%nat /\
      ((forall p, In p ep -> between pmin pmax p) -> found = ep) /\
      match ip with
      | Some ps => exists pts, c_ideal c = Some pts /\ drawn_as_stems base yideal ps pts /\ c_ylim c = (base + yideal, base + yext) /\
          (exists a b, c_ticks c = [a; b] /\ a - base = (base + yideal) - a /\ b - base = (base + yext) - b)
      | None => c_ideal c = None /\ c_ylim c = (base, base + yext) /\ (exists b, c_ticks c = [b] /\ b - base = (base + yext) - b)
      end.
Proof.
  intros ep ip base yideal yext pmin pmax. cbv zeta. exists (filter (within pmin pmax) ep). split; [apply stems_ok|]. split; [|split; [|split]].
  - intros p. rewrite filter_In, within_spec. reflexivity.
  - induction ep as [|a l IH]; cbn [filter]; [apply le_n|]. destruct (within pmin pmax a); cbn [length]; lia.
  - intros H. induction ep as [|a l IH]; [reflexivity|]. cbn [filter]. rewrite (proj2 (within_spec _ _ _) (H a (or_introl eq_refl))), IH; [reflexivity|]. intros p Hp. apply H. now right.
  - destruct ip as [ps|]; cbn [c_ideal c_ylim c_ticks comparepositions option_map].
    + eexists. split; [reflexivity|]. split; [apply stems_ok|]. split; [reflexivity|]. do 2 eexists. split; [reflexivity|]. split; field.
    + split; [reflexivity|]. split; [reflexivity|]. eexists. split; [reflexivity|]. field.
Qed.
Example C167_example : exists pts, c_found (comparepositions [1; 2; 3] None 0 (-1) 1 (Some 2) None) = pts /\ length pts = 6%nat.
Proof.
  eexists. split; [reflexivity|]. unfold comparepositions, stems, c_found. cbn [filter]. unfold within, Rleb. cbn [andb].
  destruct (Rle_dec 2 1); [lra|]. destruct (Rle_dec 2 2); [|lra]. destruct (Rle_dec 2 3); [|lra]. reflexivity.
Qed.

(** ** C168 *)
Lemma Rleb_scale a b s : 0 < s -> Rleb (a * s) (b * s) = Rleb a b.
Proof. intros H. unfold Rleb. destruct (Rle_dec (a * s) (b * s)), (Rle_dec a b); try reflexivity; exfalso; nra. Qed.
Lemma negb_Rleb a b : negb (Rleb a b) = true -> b < a.
Proof. unfold Rleb. destruct (Rle_dec a b); [discriminate|]. intros _. lra. Qed.
Theorem C168_dgseries :
  forall results scale dgmin dgmax pmin pmax d0 dn,
    0 < scale -> nth_error (map fst results) 0 = Some d0 -> nth_error (map fst results) (length results - 1) = Some dn ->
    exists pts, dgseries results scale dgmin dgmax pmin pmax = Ok pts /\
      (* a point is drawn for each position shown by a result within the limits, and no other *)
      forall x y, In (x, y) pts <-> exists dg peaks, In (dg, peaks) results /\ In x peaks /\ y = dg * scale /\
        match dgmin with Some v => v | None => d0 end <= dg <= match dgmax with Some v => v | None => dn end /\ between (Some pmin) pmax x.
Proof.
  intros results scale dgmin dgmax pmin pmax d0 dn HS H0 Hn.
  rewrite nth_error_map in H0, Hn. destruct (nth_error results 0) as [r0|] eqn:E0; [|discriminate]. destruct (nth_error results (length results - 1)) as [rn|] eqn:En; [|discriminate].
  cbn in H0, Hn. injection H0 as <-. injection Hn as <-.
  unfold dgseries. change 0%Z with (Z.of_nat 0). rewrite (pyget_ok _ _ _ E0), (pyget_last _ _ En). cbn [bind]. eexists. split; [reflexivity|].
  set (lo := match dgmin with Some v => v | None => fst r0 end). set (hi := match dgmax with Some v => v | None => fst rn end).
  intros x y. rewrite in_flat_map. split.
  - intros ([dg peaks] & HI & HP). cbn [fst snd] in HP. rewrite !Rleb_scale in HP by exact HS. destruct (Rleb lo dg) eqn:A; [|destruct HP]. destruct (Rleb dg hi) eqn:B; [|destruct HP]. cbn [negb orb] in HP.
    apply in_map_iff in HP as (p & EQ & HP). injection EQ as <- <-. apply filter_In in HP as [HP W]. apply within_spec in W. apply Rleb_spec in A, B. exists dg, peaks. repeat split; auto; apply W.
  - intros (dg & peaks & HI & HP & -> & (A & B) & W). exists (dg, peaks). split; [exact HI|]. cbn [fst snd]. rewrite !Rleb_scale by exact HS. rewrite (proj2 (Rleb_spec _ _) A), (proj2 (Rleb_spec _ _) B). cbn [negb orb].
    apply in_map_iff. exists x. split; [reflexivity|]. apply filter_In. split; [exact HP|]. now apply within_spec.
Qed.
(** Without limits every result is shown if the uncertainties ascend. *)
Theorem C168_all_shown :
  forall results scale pmin pmax pts, 0 < scale ->
    (forall i j a b, (i <= j)%nat -> nth_error (map fst results) i = Some a -> nth_error (map fst results) j = Some b -> a <= b) ->
    dgseries results scale None None pmin pmax = Ok pts ->
    forall dg peaks x, In (dg, peaks) results -> In x peaks -> between (Some pmin) pmax x -> In (x, dg * scale) pts.
Proof.
  intros results scale pmin pmax pts HS ASC E dg peaks x HI HP W.
  destruct (In_nth_error _ _ HI) as (k & Hk). assert (KL : (k < length results)%nat) by (apply nth_error_Some; congruence).
  assert (M : forall i, (i < length results)%nat -> exists d, nth_error (map fst results) i = Some d) by (intros i Hi; rewrite nth_error_map; destruct (nth_error results i) eqn:X; [eexists; reflexivity|apply nth_error_None in X; lia]).
  destruct (M 0%nat ltac:(lia)) as (d0 & H0). destruct (M (length results - 1)%nat ltac:(lia)) as (dn & Hn).
  destruct (C168_dgseries results scale None None pmin pmax d0 dn HS H0 Hn) as (pts' & E' & SPEC). assert (pts' = pts) as -> by congruence.
  apply SPEC. exists dg, peaks. assert (MK : nth_error (map fst results) k = Some dg) by (rewrite nth_error_map, Hk; reflexivity).
  repeat split; auto; try apply W; eapply ASC; [|exact H0|exact MK| |exact MK|exact Hn]; lia.
Qed.
(** C169. Violated if they descend: nothing at all is drawn. *)
Theorem C169_descending_refuted :
  forall results scale pmin pmax d0 dn, 0 < scale ->
    nth_error (map fst results) 0 = Some d0 -> nth_error (map fst results) (length results - 1) = Some dn -> dn < d0 ->
    dgseries results scale None None pmin pmax = Ok [].
Proof.
  intros results scale pmin pmax d0 dn HS H0 Hn LT. destruct (C168_dgseries results scale None None pmin pmax d0 dn HS H0 Hn) as (pts & E & SPEC). rewrite E. f_equal.
  destruct pts as [|[x y] r]; [reflexivity|]. exfalso. destruct (proj1 (SPEC x y) (or_introl eq_refl)) as (dg & pk & _ & _ & _ & (A & B) & _). lra.
Qed.
Theorem C169_example :
  (exists pts, dgseries [(0.2, [1; 2]); (0.1, [1; 2; 3])] 1 None None 0 None = Ok pts /\ pts = []) /\
  (exists pts, dgseries [(0.1, [1; 2; 3]); (0.2, [1; 2])] 1 None None 0 None = Ok pts /\ In (3, 0.1 * 1) pts).
Proof.
  split.
  - exists []. split; [|reflexivity]. apply (C169_descending_refuted _ 1 0 None 0.2 0.1); [lra|reflexivity|reflexivity|lra].
  - destruct (C168_dgseries [(0.1, [1; 2; 3]); (0.2, [1; 2])] 1 None None 0 None 0.1 0.2 ltac:(lra) eq_refl eq_refl) as (pts & E & SPEC). exists pts. split; [exact E|].
    apply SPEC. exists 0.1, [1; 2; 3]. split; [now left|]. split; [cbn; tauto|]. split; [reflexivity|]. split; [split; lra|]. split; [intros a EA; injection EA as <-; lra|discriminate].
Qed.

(** ** C170: the program never draws anything *)
Theorem C170_compare_file_refuted : forall content, exists e, readcompare content = Err e.
Proof. intros [c|e]; unfold readcompare; cbn [bind]; eauto. Qed.
Theorem C170_never_drawn_refuted :
  forall (V Rs D : Type) (fresh : @obj V) content (unpickled : result (list Rs * list string)) (next : @obj V -> list Rs -> D),
    plot_main fresh content unpickled next = NotADataFile.
Proof.
  intros V Rs D fresh content unp next. unfold plot_main.
  assert (N : forall o r, (match content with Err e => (fresh, Err e) | Ok ls => read fresh ls end) = (o, r) -> exists e, r = Err e).
  { intros o r. destruct content as [ls|e]; intros E.
    - pose proof (C127_extraction_text_refuted fresh ls) as (_ & H & _). rewrite E in H. cbn in H. eauto.
    - injection E as <- <-. eauto. }
  destruct (match content with Err e => (fresh, Err e) | Ok ls => read fresh ls end) as [o r] eqn:E. destruct (N o r eq_refl) as (e & ->).
  destruct unp as [[rs p]|]; [|reflexivity]. destruct (C127_stability_load_refuted (mkSt Rs [] fresh) rs p fresh) as ((e2 & H) & _).
  destruct (load (mkSt Rs [] fresh) rs p fresh) as [s r]. cbn in H. now rewrite H.
Qed.
Print Assumptions C167_comparepositions.
Print Assumptions C168_dgseries.
Print Assumptions C168_all_shown.
Print Assumptions C169_descending_refuted.
Print Assumptions C169_example.
Print Assumptions C170_compare_file_refuted.
Print Assumptions C170_never_drawn_refuted.

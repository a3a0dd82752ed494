(** Properties C203, C204, C205, C206: baselines from a sequence of points. *)
From Coq Require Import Reals String Ascii Sorted Lra.
From Verif Require Import Prelude Serial SerialProps FromSequence.
Open Scope string_scope.
Open Scope list_scope.

(** ** The specification of the constructor *)
Section Spec.
Variable spline : list R -> list R -> result (R -> R).
Variable files : string -> result string.
Variable float : string -> result R.

(** The documented calls: FromSequence("name"), FromSequence(file="name"),
    FromSequence(xs, ys), FromSequence(x=xs, y=ys); with keywords, other keywords may be
    there as well. *)
Definition names_file (args : list arg) (kwds : list (string * arg)) (a : arg) : Prop :=
  (args = [a] /\ kwds = []) \/
  (args = [] /\ In ("file", a) kwds /\ ~ In "x" (map fst kwds) /\ ~ In "y" (map fst kwds)).
Definition gives_sequences (args : list arg) (kwds : list (string * arg)) (a b : arg) : Prop :=
  (args = [a; b] /\ kwds = []) \/
  (args = [] /\ In ("x", a) kwds /\ In ("y", b) kwds /\ ~ In "file" (map fst kwds)).
Notation construct := (construct spline files float).

Lemma haskey_spec k (kw : list (string * arg)) : haskey k kw = true <-> In k (map fst kw).
Proof.
  unfold haskey. rewrite existsb_exists. split.
  - intros ([k' v] & I & E). apply String.eqb_eq in E. cbn [fst] in E. subst. change k' with (fst (k', v)). now apply in_map.
  - intros I. apply in_map_iff in I as ([k' v] & <- & I). exists (k', v). split; [exact I|apply String.eqb_refl].
Qed.
Lemma haskey_no k (kw : list (string * arg)) : haskey k kw = false <-> ~ In k (map fst kw).
Proof. rewrite <- haskey_spec. destruct (haskey k kw); split; congruence. Qed.
Lemma value_in k (kw : list (string * arg)) a : NoDup (map fst kw) -> (value_of k kw = Ok a <-> In (k, a) kw).
Proof.
  unfold value_of. induction kw as [|[k' v] kw IH]; intros ND; [cbn; split; [discriminate|intros []]|].
  inversion ND as [|? ? N1 N2]; subst. cbn [find fst snd In]. destruct (String.eqb_spec k k') as [->|NE].
  - cbn [snd]. split; [intros E; injection E as ->; now left|]. intros [E|I]; [now injection E as ->|].
    exfalso. apply N1. change k' with (fst (k', a)). now apply in_map.
  - rewrite (IH N2). split; [now right|]. intros [E|I]; [injection E as -> ->; contradiction|exact I].
Qed.
Lemma haskey_value k (kw : list (string * arg)) : haskey k kw = true -> exists a, value_of k kw = Ok a.
Proof.
  unfold value_of, haskey. induction kw as [|[k' v] kw IH]; cbn [existsb find fst snd]; [discriminate|].
  destruct (String.eqb k k'); [eauto|]. exact IH.
Qed.

(** What the four branches amount to. *)
Lemma resolve_cases fa h args kwds : NoDup (map fst kwds) ->
  (exists a, names_file args kwds a /\ resolve files float fa h args kwds = load_file files float fa h a) \/
  (exists a b, gives_sequences args kwds a b /\ resolve files float fa h args kwds = (h, Ok (a, b))) \/
  ((forall a, ~ names_file args kwds a) /\ (forall a b, ~ gives_sequences args kwds a b) /\ resolve files float fa h args kwds = (h, Err TypeError)).
Proof.
  intros ND. destruct args as [|a [|b [|c args]]].
  - cbn [List.length Nat.eqb andb]. unfold resolve. cbn [List.length Nat.eqb andb].
    destruct (haskey "file" kwds) eqn:HF; destruct (haskey "x" kwds) eqn:HX; destruct (haskey "y" kwds) eqn:HY; cbn [andb negb].
    all: try (right; right; split; [intros a [(E & _)|(_ & I & NX & NY)]; [discriminate|]|split; [intros a b [(E & _)|(_ & I & J & NF)]; [discriminate|]|reflexivity]]).
    all: repeat match goal with
         | I : In (?k, ?v) ?kw, N : haskey ?k ?kw = false |- _ => exfalso; apply haskey_no in N; apply N; change k with (fst (k, v)); apply in_map; exact I
         | N : haskey ?k ?kw = true, M : ~ In ?k (map fst ?kw) |- _ => exfalso; apply M, haskey_spec, N
         end.
    + left. destruct (haskey_value _ _ HF) as (a & V). rewrite V. exists a. split; [|reflexivity]. right. split; [reflexivity|].
      split; [now apply value_in|]. split; now apply haskey_no.
    + right; left. destruct (haskey_value _ _ HX) as (a & V), (haskey_value _ _ HY) as (b & W). rewrite V, W. exists a, b. split; [|reflexivity].
      right. split; [reflexivity|]. split; [now apply value_in|]. split; [now apply value_in|]. now apply haskey_no.
  - destruct kwds as [|kv kwds].
    + left. exists a. split; [left; auto|reflexivity].
    + right; right. split; [intros a' [(_ & E)|(E & _)]; discriminate|]. split; [intros a' b' [(E & _)|(E & _)]; discriminate|reflexivity].
  - destruct kwds as [|kv kwds].
    + right; left. exists a, b. split; [left; auto|reflexivity].
    + right; right. split; [intros a' [(E & _)|(E & _)]; discriminate|]. split; [intros a' b' [(_ & E)|(E & _)]; discriminate|reflexivity].
  - right; right. split; [intros a' [(E & _)|(E & _)]; discriminate|]. split; [intros a' b' [(E & _)|(E & _)]; discriminate|].
    unfold resolve. cbn [List.length Nat.eqb andb]. reflexivity.
Qed.

(** Two sequence objects make a baseline exactly if they have the same length and the
    spline accepts them; then the safe range is from the first to the last x. *)
Definition baseline_of (h : heap) (px py : nat) (r : result fseq) : Prop :=
  if (List.length (h px) =? List.length (h py))%nat then
    match spline (h px) (h py) with
    | Err e => r = Err e
    | Ok s => match h px with
              | [] => r = Err IndexError
              | x0 :: _ => r = Ok (mkFseq s x0 (last (h px) x0) px py)
              end
    end
  else r = Err ValueError.

Lemma pyget0 {A} (l : list A) : pyget l 0 = match l with [] => Err IndexError | a :: _ => Ok a end.
Proof. unfold pyget. cbn [Z.ltb Z.compare]. destruct l as [|a l]; [reflexivity|]. cbn [List.length]. destruct (Z.leb_spec (Z.of_nat (S (List.length l))) 0); [lia|]. reflexivity. Qed.
Lemma nth_last {A} (l : list A) a d : nth_error (a :: l) (List.length l) = Some (last (a :: l) d).
Proof. revert a. induction l as [|b l IH]; intros a; [reflexivity|]. cbn [List.length nth_error]. rewrite IH. reflexivity. Qed.
Lemma pyget_last {A} (l : list A) : pyget l (-1) = match l with [] => Err IndexError | a :: _ => Ok (last l a) end.
Proof.
  unfold pyget. cbn [Z.ltb Z.compare]. destruct l as [|a l]; [reflexivity|].
  replace (-1 + Z.of_nat (List.length (a :: l)))%Z with (Z.of_nat (List.length l)) by (cbn [List.length]; lia).
  destruct (Z.ltb_spec (Z.of_nat (List.length l)) 0); [lia|]. destruct (Z.leb_spec (Z.of_nat (List.length (a :: l))) (Z.of_nat (List.length l))) as [C|C]; [cbn [List.length] in C; lia|].
  cbn [orb]. rewrite Nat2Z.id, (nth_last l a a). reflexivity.
Qed.

(** *** C203 *)
Theorem C203_four_signatures :
  forall fa h args kwds, NoDup (map fst kwds) ->
    (* sequences *)
    (forall px py, gives_sequences args kwds (ASeq px) (ASeq py) ->
       fst (construct fa h args kwds) = h /\ baseline_of h px py (snd (construct fa h args kwds))) /\
    (* a file with rows of numbers: its two columns, in order *)
    (forall name t rows, names_file args kwds (AText name) -> files name = Ok t -> readxy float t = Ok rows ->
       fst (construct fa h args kwds) fa = map fst rows /\ fst (construct fa h args kwds) (S fa) = map snd rows /\
       (forall a, (a < fa)%nat -> fst (construct fa h args kwds) a = h a) /\
       baseline_of (fst (construct fa h args kwds)) fa (S fa) (snd (construct fa h args kwds))) /\
    (* a file that cannot be read, or has other rows *)
    (forall name e, names_file args kwds (AText name) ->
       (files name = Err e \/ exists t, files name = Ok t /\ readxy float t = Err e) -> construct fa h args kwds = (h, Err e)) /\
    (* anything else *)
    ((forall a, ~ names_file args kwds a) -> (forall a b, ~ gives_sequences args kwds a b) ->
       construct fa h args kwds = (h, Err TypeError)).
Proof.
  intros fa h args kwds ND.
  assert (UN : forall k a b, In (k, a) kwds -> In (k, b) kwds -> a = b).
  { intros k a b I J. apply value_in in I, J; auto. congruence. }
  assert (KEY : forall k (a : arg), In (k, a) kwds -> In k (map fst kwds)).
  { intros k a I. change k with (fst (k, a)). now apply in_map. }
  assert (SEQ : forall px py h', baseline_of h' px py
     (do n <- alen h' (ASeq px); do m <- alen h' (ASeq py); if negb (n =? m)%nat then Err ValueError else
        do s <- spline (h' px) (h' py); do lo <- pyget (h' px) 0; do hi <- pyget (h' px) (-1); Ok (mkFseq s lo hi px py))).
  { intros px py h'. unfold baseline_of. cbn [alen bind]. destruct (_ =? _)%nat; cbn [negb]; [|reflexivity].
    destruct (spline (h' px) (h' py)) as [s|e]; cbn [bind]; [|reflexivity]. rewrite pyget0, pyget_last. destruct (h' px); reflexivity. }
  unfold FromSequence.construct.
  destruct (resolve_cases fa h args kwds ND) as [(a & NF & E)|[(a & b & GS & E)|(N1 & N2 & E)]]; rewrite E; clear E.
  - assert (NS : forall a' b', ~ gives_sequences args kwds a' b').
    { intros a' b' [(E1 & E2)|(E1 & I1 & I2 & N)]; destruct NF as [(F1 & F2)|(F1 & J1 & NX & NY)]; subst; try discriminate. apply N. exact (KEY _ _ J1). }
    assert (SAME : forall a', names_file args kwds a' -> a' = a).
    { intros a' [(E1 & E2)|(E1 & I1 & NX & NY)]; destruct NF as [(F1 & F2)|(F1 & J1 & NX' & NY')]; try congruence. exact (UN _ _ _ I1 J1). }
    split; [intros px py G; exfalso; exact (NS _ _ G)|]. split; [|split].
    + intros name t rows G F1 F2. apply SAME in G. subst a. unfold load_file. rewrite F1, F2. cbn [fst snd].
      assert (A1 : alloc (alloc h fa (map fst rows)) (S fa) (map snd rows) fa = map fst rows).
      { unfold alloc. destruct (Nat.eqb_spec fa (S fa)); [lia|]. now rewrite Nat.eqb_refl. }
      assert (A2 : alloc (alloc h fa (map fst rows)) (S fa) (map snd rows) (S fa) = map snd rows) by (unfold alloc; now rewrite Nat.eqb_refl).
      split; [exact A1|]. split; [exact A2|]. split; [|apply SEQ].
      intros x Hx. unfold alloc. destruct (Nat.eqb_spec x (S fa)); [lia|]. destruct (Nat.eqb_spec x fa); [lia|reflexivity].
    + intros name e G [F|(t & F & F2)]; apply SAME in G; subst a; unfold load_file; rewrite F; [reflexivity|now rewrite F2].
    + intros C. exfalso. exact (C a NF).
  - assert (NS : forall a', ~ names_file args kwds a').
    { intros a' [(E1 & E2)|(E1 & I1 & NX & NY)]; destruct GS as [(F1 & F2)|(F1 & J1 & J2 & N)]; subst; try discriminate. apply N. exact (KEY _ _ I1). }
    split; [|split; [intros name t rows G; exfalso; exact (NS _ G)|split; [intros name e G; exfalso; exact (NS _ G)|intros _ C; exfalso; exact (C a b GS)]]].
    intros px py G.
    assert (a = ASeq px /\ b = ASeq py) as (-> & ->).
    { destruct G as [(E1 & E2)|(E1 & I1 & I2 & N)]; destruct GS as [(F1 & F2)|(F1 & J1 & J2 & N')]; try congruence; [rewrite E1 in F1; injection F1 as <- <-; auto|]. split; [exact (UN _ _ _ J1 I1)|exact (UN _ _ _ J2 I2)]. }
    cbn [fst snd]. split; [reflexivity|apply SEQ].
  - split; [intros px py G; exfalso; exact (N2 _ _ G)|]. split; [intros name t rows G; exfalso; exact (N1 _ G)|]. split; [intros name e G; exfalso; exact (N1 _ G)|]. reflexivity.
Qed.

(** A baseline that was made knows at least one point. *)
Definition made_from (f : fseq) (xs ys : list R) : Prop :=
  exists fa h args kwds h', NoDup (map fst kwds) /\ construct fa h args kwds = (h', Ok f) /\
    h' (f_x f) = xs /\ h' (f_y f) = ys.

Lemma made_spec f xs ys : made_from f xs ys ->
  List.length xs = List.length ys /\ spline xs ys = Ok (f_spline f) /\
  exists x0 r, xs = x0 :: r /\ f_minx f = x0 /\ f_maxx f = last xs x0.
Proof.
  intros (fa & h & args & kwds & h' & ND & E & HX & HY). unfold FromSequence.construct in E.
  destruct (resolve files float fa h args kwds) as [h1 [[x y]|e]]; [|discriminate]. injection E as <- E.
  destruct (alen h1 x) as [n|] eqn:A; [|discriminate]. cbn [bind] in E. destruct (alen h1 y) as [m|] eqn:B; [|discriminate]. cbn [bind] in E.
  destruct (Nat.eqb_spec n m) as [EQ|]; cbn [negb] in E; [|discriminate].
  destruct x as [px| |]; [|destruct y; discriminate|discriminate]. destruct y as [py| |]; [|discriminate|discriminate].
  cbn [alen] in A, B. destruct (spline (h1 px) (h1 py)) as [s|] eqn:S; [|discriminate]. cbn [bind] in E.
  rewrite pyget0, pyget_last in E. destruct (h1 px) as [|x0 r] eqn:X; [discriminate|]. cbn [bind] in E. injection E as <-.
  cbn [f_x f_y f_spline f_minx f_maxx] in *. rewrite X in HX. subst xs ys.
  split; [|split; [exact S|exists x0, r; auto]].
  assert (Ok (List.length (x0 :: r)) = Ok n) as A' by exact A. injection A' as A'. injection B as B. cbn [List.length] in A'. congruence.
Qed.

(** *** C204 *)
Variable empty_truth : result bool.
(** [l] is increasing (not necessarily strictly) *)
Definition sorted (l : list R) : Prop := StronglySorted Rle l.
Lemma sorted_ends a l b : sorted (a :: l) -> In b (a :: l) -> (a <= b <= last (a :: l) a)%R.
Proof.
  intros S I. split.
  - destruct I as [<-|I]; [apply Rle_refl|]. inversion S as [|? ? _ F]; subst. rewrite Forall_forall in F. auto.
  - assert (G : forall l a d b, sorted (a :: l) -> In b (a :: l) -> (b <= last (a :: l) d)%R).
    { clear. induction l as [|c l IH]; intros a d b S I; [destruct I as [<-|[]]; apply Rle_refl|].
      inversion S as [|? ? S1 F]; subst. change (last (a :: c :: l) d) with (last (c :: l) d). destruct I as [<-|I]; [|now apply IH].
      rewrite Forall_forall in F. apply Rle_trans with c; [apply F; now left|]. apply IH; [exact S1|now left]. }
    now apply G.
Qed.

Theorem C204_evaluation :
  forall f xs ys, made_from f xs ys -> sorted xs ->
    (* parameters are refused *)
    (forall pars r, pars <> [] -> fs_value empty_truth f pars r = (None, Err ValueError)) /\
    (* increasing r: the values of the spline, a warning exactly if some point is not within the points given *)
    (forall r, r <> [] -> sorted r ->
       snd (fs_value empty_truth f [] r) = Ok (map (f_spline f) r) /\
       (fst (fs_value empty_truth f [] r) <> None <-> exists a, In a r /\ ~ (exists x x', In x xs /\ In x' xs /\ (x <= a <= x')%R))) /\
    (* a number *)
    (forall r, snd (fs_value_at f [] r) = Ok (f_spline f r) /\
       (fst (fs_value_at f [] r) <> None <-> ~ (exists x x', In x xs /\ In x' xs /\ (x <= r <= x')%R))) /\
    (* through the points, if the spline is *)
    ((forall x y, In (x, y) (combine xs ys) -> f_spline f x = y) -> fs_value empty_truth f [] xs = (None, Ok ys)).
Proof.
  intros f xs ys M SX. destruct (made_spec _ _ _ M) as (LEN & SP & x0 & xr & EX & LO & HI).
  assert (IN0 : In x0 xs) by (rewrite EX; now left).
  assert (IN1 : In (last xs x0) xs).
  { rewrite EX. clear. generalize x0 at 2. revert x0. induction xr as [|c l IH]; intros a d; [now left|]. change (last (a :: c :: l) d) with (last (c :: l) d). right. apply IH. }
  assert (RNG : forall a, (x0 <= a <= last xs x0)%R <-> exists x x', In x xs /\ In x' xs /\ (x <= a <= x')%R).
  { intros a. split; [intros H; exists x0, (last xs x0); auto|]. intros (x & x' & I & J & H1 & H2).
    rewrite EX in SX, I, J. apply sorted_ends in I, J; auto. rewrite EX. lra. }
  assert (OUT : forall a b, (a <= b)%R -> (outside f a b = true <-> ~ (x0 <= a <= last xs x0)%R \/ ~ (x0 <= b <= last xs x0)%R)).
  { intros a b H. unfold outside. rewrite LO, HI. destruct (Rlt_dec a x0), (Rlt_dec (last xs x0) b); cbn [orb]; split; intros; try reflexivity; try discriminate; try (left; lra); try (right; lra). exfalso. lra. }
  split; [|split; [|split]].
  - intros pars r NE. unfold fs_value. destruct pars; [contradiction|]. reflexivity.
  - intros r NE SR. destruct r as [|a r]; [contradiction|]. unfold fs_value. cbn [List.length fs_npars Nat.eqb negb]. rewrite pyget0, pyget_last. cbn [fst snd].
    split; [reflexivity|]. set (b := last (a :: r) a).
    assert (AB : (a <= b)%R). { destruct (sorted_ends _ _ a SR); [now left|]. assumption. }
    assert (IB : In b (a :: r)). { unfold b. clear. generalize a at 2. revert a. induction r as [|c l IH]; intros a d; [now left|]. change (last (a :: c :: l) d) with (last (c :: l) d). right. apply IH. }
    assert (EQ : outside f a b = true <-> exists a0, In a0 (a :: r) /\ ~ (exists x x', In x xs /\ In x' xs /\ (x <= a0 <= x')%R)).
    { rewrite (OUT a b AB). split.
      - intros [H|H]; [exists a|exists b]; (split; [first [exact IB | now left]|]); intros C; apply RNG in C; contradiction.
      - intros (a0 & I0 & N). destruct (sorted_ends _ _ _ SR I0) as [H1 H2]. fold b in H2. rewrite <- RNG in N.
        destruct (Rlt_dec a x0); [left; lra|]. right. lra. }
    rewrite <- EQ. destruct (outside f a b); split; congruence.
  - intros r. unfold fs_value_at. cbn [List.length fs_npars Nat.eqb negb fst snd]. split; [reflexivity|].
    assert (EQ : outside f r r = true <-> ~ (exists x x', In x xs /\ In x' xs /\ (x <= r <= x')%R)).
    { rewrite (OUT r r) by apply Rle_refl. rewrite <- RNG. tauto. }
    rewrite <- EQ. destruct (outside f r r); split; congruence.
  - intros TP. unfold fs_value. cbn [List.length fs_npars Nat.eqb negb]. rewrite pyget0, pyget_last, EX.
    assert (outside f x0 (last (x0 :: xr) x0) = false) as ->.
    { rewrite <- EX. unfold outside. rewrite LO, HI. destruct (Rlt_dec x0 x0); [lra|]. destruct (Rlt_dec (last xs x0) (last xs x0)); [lra|reflexivity]. }
    f_equal. f_equal. rewrite <- EX. clear - LEN TP. revert ys LEN TP. induction xs as [|x xs' IH]; intros [|y ys] LEN TP; try discriminate; [reflexivity|].
    cbn [map]. f_equal; [apply TP; now left|]. apply IH; [cbn in LEN; congruence|]. intros; apply TP. now right.
Qed.

(** No parameters: nothing to estimate, no derivatives, only the internal format. *)
Theorem C204_no_parameters :
  fs_npars = 0%nat /\ (forall r y, fs_estimate r y = []) /\
  (forall pars free, fs_jacobian pars free = if (List.length pars =? 0)%nat && (List.length free =? 0)%nat then Ok [] else Err ValueError)%bool /\
  (forall fin fout, fs_transform [] fin fout = Ok [] <-> fin = "internal" /\ fout = "internal") /\
  (forall fin fout, fin <> "internal" \/ fout <> "internal" -> fs_transform [] fin fout = Err ValueError).
Proof.
  split; [reflexivity|]. split; [reflexivity|]. split; [|split].
  - intros pars free. unfold fs_jacobian, fs_npars. destruct (_ =? _)%nat; [|reflexivity]. destruct (_ =? _)%nat; reflexivity.
  - intros fin fout. unfold fs_transform. destruct (String.eqb_spec fin "internal"); cbn [negb]; [|split; [discriminate|intros [? ?]; contradiction]].
    destruct (String.eqb_spec fout "internal"); cbn [negb]; split; try discriminate; auto. intros [? ?]; contradiction.
  - intros fin fout. unfold fs_transform. destruct (String.eqb_spec fin "internal"); cbn [negb]; [|reflexivity].
    destruct (String.eqb_spec fout "internal"); cbn [negb]; [|reflexivity]. intros [?|?]; contradiction.
Qed.

Lemma slice_nth {A} (l : list A) : forall lo k i, (i < k)%nat -> nth_error (firstn k (skipn lo l)) i = nth_error l (lo + i).
Proof.
  clear. intros lo k i H. revert lo l. assert (G : forall (l : list A), nth_error (firstn k l) i = nth_error l i).
  { revert i H. induction k as [|k IH]; intros [|i] H [|a l]; try lia; cbn; auto. apply IH. lia. }
  intros lo l. rewrite G. revert l. induction lo as [|lo IH]; intros l; [reflexivity|]. destruct l; cbn; [now destruct i|apply IH].
Qed.
Lemma nth_repeat_at {A} (a : A) : forall n i, (i < n)%nat -> nth_error (repeat a n) i = Some a.
Proof. clear. induction n as [|n IH]; intros [|i] H; try lia; [reflexivity|]. cbn. apply IH. lia. Qed.
(** A slice lo:hi that is not empty: zeros outside it, the spline inside, as many values as
    points; whether a warning is logged depends on the points of the slice only. *)
Theorem C204_slice :
  forall f r lo hi, (lo < hi)%nat -> (lo < List.length r)%nat ->
    exists v, snd (fs_slice_value empty_truth f r lo hi) = Ok v /\ List.length v = List.length r /\
      (forall i a, nth_error r i = Some a -> nth_error v i = Some (if ((lo <=? i) && (i <? hi))%nat%bool then f_spline f a else 0%R)) /\
      fst (fs_slice_value empty_truth f r lo hi) = fst (fs_value empty_truth f [] (firstn (hi - lo) (skipn lo r))).
Proof.
  intros f r lo hi L1 L2. unfold fs_slice_value. remember (firstn (hi - lo) (skipn lo r)) as part eqn:EP.
  assert (LP : List.length part = Nat.min (hi - lo) (List.length r - lo)) by (subst part; now rewrite firstn_length, skipn_length).
  assert (NE : exists w, fs_value empty_truth f [] part = (w, Ok (map (f_spline f) part))).
  { destruct part as [|a part]; [cbn in LP; lia|]. unfold fs_value. cbn [List.length fs_npars Nat.eqb negb]. rewrite pyget0, pyget_last. eexists. reflexivity. }
  destruct NE as [w E]. rewrite E. cbn [fst snd]. eexists. split; [reflexivity|].
  replace (Nat.min lo (List.length r)) with lo by lia. split; [|split; [|reflexivity]].
  - rewrite !app_length, !repeat_length, map_length. lia.
  - intros i a N. assert (IL : (i < List.length r)%nat) by (apply nth_error_Some; congruence).
    destruct (Nat.leb_spec lo i) as [H|H]; cbn [andb].
    + rewrite nth_error_app2; rewrite repeat_length; [|exact H]. destruct (Nat.ltb_spec i hi) as [K|K].
      * rewrite nth_error_app1; [|rewrite map_length; lia]. apply map_nth_error. subst part. rewrite slice_nth by lia. replace (lo + (i - lo))%nat with i by lia. exact N.
      * rewrite nth_error_app2; rewrite map_length; [|lia]. apply nth_repeat_at. lia.
    + rewrite nth_error_app1; [|rewrite repeat_length; lia]. apply nth_repeat_at. exact H.
Qed.

(** *** C205 *)
Variable repr : R -> string.
Variable eval_list : string -> result (list R).
(** the numbers that occur: floats, not all reals have a text *)
Variable is_float : R -> Prop.

(** If the two sequences still are what they were, the text of the baseline is read as a
    baseline with the same spline and the same safe range, wherever the new lists are put. *)
Theorem C205_text_gives_the_same_baseline :
  (forall l, Forall is_float l -> eval_list (xyrepr repr l) = Ok l) ->
  forall f xs ys h fa, made_from f xs ys -> Forall is_float xs -> Forall is_float ys -> h (f_x f) = xs -> h (f_y f) = ys ->
    exists h' f', reread spline files float eval_list fa h (fs_meta repr f h) = (h', Ok f') /\
      f_spline f' = f_spline f /\ f_minx f' = f_minx f /\ f_maxx f' = f_maxx f /\
      h' (f_x f') = xs /\ h' (f_y f') = ys /\ made_from f' xs ys.
Proof.
  intros EV f xs ys h fa M FX FY HX HY. destruct (made_spec _ _ _ M) as (LEN & SP & x0 & xr & EX & LO & HI).
  unfold reread, fs_meta. rewrite HX, HY, (EV _ FX), (EV _ FY). set (h2 := alloc (alloc h fa xs) (S fa) ys).
  assert (A1 : h2 fa = xs). { unfold h2, alloc. destruct (Nat.eqb_spec fa (S fa)); [lia|]. now rewrite Nat.eqb_refl. }
  assert (A2 : h2 (S fa) = ys) by (unfold h2, alloc; now rewrite Nat.eqb_refl).
  set (kw := [("x", ASeq fa); ("y", ASeq (S fa))]).
  assert (ND : NoDup (map fst kw)). { cbn. repeat constructor; cbn; intuition discriminate. }
  destruct (C203_four_signatures (S (S fa)) h2 [] kw ND) as (CS & _).
  destruct (CS fa (S fa)) as (C1 & C2).
  { right. split; [reflexivity|]. unfold kw. cbn [In map fst]. split; [now left|]. split; [right; now left|]. intros [C|[C|[]]]; discriminate. }
  unfold baseline_of in C2. rewrite A1, A2, LEN, Nat.eqb_refl, SP in C2. rewrite EX in C2. rewrite <- EX in C2.
  destruct (construct (S (S fa)) h2 [] kw) as [h3 rr] eqn:E. cbn [fst snd] in C1, C2. subst h3 rr.
  exists h2, (mkFseq (f_spline f) x0 (last xs x0) fa (S fa)). split; [reflexivity|]. cbn [f_spline f_minx f_maxx f_x f_y].
  rewrite LO, HI. repeat (split; [assumption || reflexivity|]). exists (S (S fa)), h2, [], kw, h2. cbn [f_x f_y]. auto.
Qed.
End Spec.

(** ** What does not hold *)
(** A sample spline: a straight line through zero, whatever the points. *)
Definition line : list R -> list R -> result (R -> R) := fun xs ys => Ok (fun r => r).
Definition nofile : string -> result string := fun _ => Err TypeError.
Definition nofloat : string -> result R := fun _ => Err ValueError.
Definition h01 : heap := fun a => match a with 0%nat => [0; 1]%R | 1%nat => [0; 1]%R | _ => [] end.
Definition f01 : fseq := mkFseq (fun r => r) 0 1 0 1.

Lemma f01_made : construct line nofile nofloat 2 h01 [ASeq 0; ASeq 1] [] = (h01, Ok f01).
Proof. reflexivity. Qed.
Lemma f01_from : made_from line nofile nofloat f01 [0; 1]%R [0; 1]%R.
Proof. exists 2%nat, h01, [ASeq 0; ASeq 1], [], h01. split; [constructor|]. split; [exact f01_made|]. split; reflexivity. Qed.

(** Misspelt or superfluous keywords are not noticed. *)
Theorem C203_unknown_keywords_refuted :
  ~ (forall spline files float fa h kwds f h' k,
       NoDup (map fst kwds) -> construct spline files float fa h [] kwds = (h', Ok f) -> In k (map fst kwds) -> In k ["x"; "y"; "file"]).
Proof.
  intros H. specialize (H line nofile nofloat 2%nat h01 [("x", ASeq 0); ("y", ASeq 1); ("degree", AOther)] f01 h01 "degree").
  destruct H as [C|[C|[C|[]]]]; try discriminate; [|reflexivity|cbn; tauto].
  cbn. repeat constructor; cbn; intuition discriminate.
Qed.

(** Points in any order: only the first and the last are compared with the safe range. *)
Theorem C204_every_point_outside_warns_refuted :
  ~ (forall spline files float et f xs ys r a, made_from spline files float f xs ys -> sorted xs ->
       In a r -> ~ (exists x x', In x xs /\ In x' xs /\ (x <= a <= x')%R) -> fst (fs_value et f [] r) <> None).
Proof.
  intros H. apply (H line nofile nofloat (Ok false) f01 [0; 1]%R [0; 1]%R [0; 5; 1]%R 5%R f01_from).
  - repeat constructor; lra.
  - cbn; tauto.
  - intros (x & x' & _ & [<-|[<-|[]]] & C); lra.
  - unfold fs_value. cbn [List.length fs_npars Nat.eqb negb]. rewrite pyget0, pyget_last. cbn [last fst].
    unfold outside, f01. cbn [f_minx f_maxx]. destruct (Rlt_dec 0 0); [lra|]. destruct (Rlt_dec 1 1); [lra|]. reflexivity.
Qed.

(** Three numbers with a text and its reader. *)
Definition digit (r : R) : Prop := (r = 0 \/ r = 1 \/ r = 7)%R.
Definition digit_repr (r : R) : string := if Req_EM_T r 0 then "0" else if Req_EM_T r 1 then "1" else "7".
Fixpoint digits (s : string) : list R :=
  match s with
  | EmptyString => []
  | String c t => if Ascii.eqb c "0" then 0%R :: digits t else if Ascii.eqb c "1" then 1%R :: digits t else if Ascii.eqb c "7" then 7%R :: digits t else digits t
  end.
Definition digit_eval (s : string) : result (list R) := Ok (digits s).
Lemma digits_app a b : digits (a ++ b)%string = digits a ++ digits b.
Proof. induction a as [|c a IH]; [reflexivity|]. cbn [String.append digits]. rewrite IH. destruct (Ascii.eqb c "0"), (Ascii.eqb c "1"), (Ascii.eqb c "7"); reflexivity. Qed.
Lemma digit_one r : digit r -> digits (digit_repr r) = [r].
Proof.
  unfold digit_repr. intros [ -> | [ -> | -> ] ].
  - destruct (Req_EM_T 0 0); [reflexivity|congruence].
  - destruct (Req_EM_T 1 0); [lra|]. destruct (Req_EM_T 1 1); [reflexivity|congruence].
  - destruct (Req_EM_T 7 0); [lra|]. destruct (Req_EM_T 7 1); [lra|reflexivity].
Qed.
Lemma digit_join l : Forall digit l -> digits (join ", " (map digit_repr l)) = l.
Proof.
  induction 1 as [|r l D F IH]; [reflexivity|]. destruct l as [|b l]; [cbn [map join]; now apply digit_one|].
  change (join ", " (map digit_repr (r :: b :: l))) with (digit_repr r ++ ", " ++ join ", " (map digit_repr (b :: l)))%string.
  rewrite !digits_app, IH, (digit_one r D). reflexivity.
Qed.
Lemma digit_back l : Forall digit l -> digit_eval (xyrepr digit_repr l) = Ok l.
Proof. intros F. unfold digit_eval, xyrepr. rewrite !digits_app, (digit_join l F). cbn. now rewrite app_nil_r. Qed.

(** The written text is that of the lists as they are at the time of writing; changing a
    list given to the constructor changes the text, but not the baseline. *)
Theorem C205_text_describes_the_baseline_refuted :
  ~ (forall spline files float repr eval_list (is_float : R -> Prop) f xs ys h fa h' f',
       (forall l, Forall is_float l -> eval_list (xyrepr repr l) = Ok l) ->
       made_from spline files float f xs ys -> Forall is_float (h (f_x f)) -> Forall is_float (h (f_y f)) ->
       reread spline files float eval_list fa h (fs_meta repr f h) = (h', Ok f') -> f_maxx f' = f_maxx f).
Proof.
  intros H. set (h := alloc h01 0 [0; 7]%R).
  specialize (H line nofile nofloat digit_repr digit_eval digit f01 [0; 1]%R [0; 1]%R h 2%nat).
  destruct (reread line nofile nofloat digit_eval 2 h (fs_meta digit_repr f01 h)) as [h' r] eqn:E.
  unfold reread, fs_meta in E. rewrite !digit_back in E by (unfold h, f01, alloc, h01, digit; cbn; repeat constructor; tauto).
  cbn in E. injection E as <- <-.
  assert (C : (7 = 1)%R) by (eapply (H _ (mkFseq (fun r => r) 0 7 2 3)); [exact digit_back|exact f01_from|..|reflexivity]; unfold h, f01, alloc, h01, digit; cbn; repeat constructor; tauto).
  lra.
Qed.

(** ** Concrete cases *)
Example C203_nonvacuous :
  gives_sequences [ASeq 0; ASeq 1] [] (ASeq 0) (ASeq 1) /\ baseline_of line h01 0 1 (Ok f01) /\
  names_file [AText "a.dat"] [] (AText "a.dat") /\
  names_file [] [("file", AText "a.dat")] (AText "a.dat").
Proof.
  split; [left; auto|]. split; [reflexivity|]. split; [left; auto|]. right. cbn. repeat split; auto; intros [C|[]]; discriminate.
Qed.
Example C204_nonvacuous :
  made_from line nofile nofloat f01 [0; 1]%R [0; 1]%R /\ sorted [0; 1]%R /\ (forall x y, In (x, y) (combine [0; 1]%R [0; 1]%R) -> f_spline f01 x = y).
Proof.
  split; [exact f01_from|]. split; [repeat constructor; lra|]. cbn. intros x y [E|[E|[]]]; injection E as <- <-; reflexivity.
Qed.
Example C205_nonvacuous :
  (forall l, Forall digit l -> digit_eval (xyrepr digit_repr l) = Ok l) /\ Forall digit [0; 1]%R /\ h01 (f_x f01) = [0; 1]%R /\ h01 (f_y f01) = [0; 1]%R.
Proof. split; [exact digit_back|]. split; [repeat constructor; unfold digit; tauto|]. split; reflexivity. Qed.

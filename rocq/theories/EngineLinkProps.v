(** C221: what the other theorems assume of the optimiser, proved of ModelParts.fit for
    every behaviour of scipy's leastsq, and what follows for the extraction. *)
From Coq Require Import Permutation.
From Verif Require DataClustersExamples ExtractTotalProps ModelClusterProofs.
From Verif Require Import Prelude Parts PartsProofs PartsFit ModelCluster ModelClusterProps Prune PruneProofs PruneProps
  Extract ExtractProofs ExtractProps EngineLink.
Open Scope nat_scope.

Section Link.
Variables V X W : Type.
Variable isnan : V -> bool.
Variable fn : nat -> func V X W.
Notation cont := (content V).
Notation cluster := (cluster cont cont).
Notation look := (look V).
Notation heap := (heap V).
Notation live := (live V).
Notation heap_ok := (heap_ok V X W fn).
Notation build := (build V X W fn).
Notation parts_engine := (parts_engine V X W isnan fn).

(** ** Specification *)

(** x' is x after fits: the same owner, flags and switches, as many parameters; the
    parameters held fixed are those of x, except that the whole vector may have been put
    in the owner's normal form. *)
Definition refitted (x x' : cont) : Prop :=
  let '(ow, ps, fl, rm, st) := x in
  exists ps' ps1, x' = (ow, ps', fl, rm, st) /\ length ps1 = length ps /\
    (forall i, nth_error fl i = Some false -> nth_error ps1 i = nth_error ps i) /\
    (ps' = ps1 \/ f_norm (fn ow) ps1 = Ok ps').

(** leastsq answers, if it does, with as many numbers as there are free parameters. *)
Definition answers_fit (l : list cont -> cluster -> nat -> lsq V) : Prop :=
  forall all c n x ier pc, snd (l all c n) = LDone V x ier pc ->
    length x = list_sum (map (fun y : cont => let '(_, _, fl, _, _) := y in length (filter (fun b => b) fl)) all).
(** leastsq never answers with NaN. *)
Definition answers_numbers (l : list cont -> cluster -> nat -> lsq V) : Prop :=
  forall all c n x ier pc, snd (l all c n) = LDone V x ier pc -> existsb isnan x = false.

(** ** Building the objects *)
Lemma build_ok l : forall h, heap_ok h -> forallb (admissible V X W isnan fn false) l = true ->
  exists h' qs, build h l = (h', Ok qs) /\ heap_ok h' /\ NoDup qs /\ (forall q, In q qs -> look h q = None) /\
    (forall p, live h p -> look h' p = look h p) /\ Forall2 (fun x q => look h' q = Some x) l qs.
Proof.
  induction l as [|[[[[ow ps] fl] rm] st] l IH]; intros h I A.
  { exists h, []. split; [reflexivity|]. split; [exact I|]. split; [constructor|]. split; [intros q []|]. split; [auto|constructor]. }
  cbn [forallb] in A. apply andb_true_iff in A as [A1 A2]. cbn in A1. rewrite andb_true_r in A1. apply andb_true_iff in A1 as [L1 L2].
  apply Nat.eqb_eq in L1, L2. cbn [EngineLink.build]. pose proof (construct_cases V X W fn h ow ps (Some fl) rm st I) as C.
  destruct (construct V X W fn h ow ps (Some fl) rm st) as [h1 [q|e]].
  2:{ destruct C as (_ & _ & [C|(k & [= <-] & C)]); contradiction. }
  destruct C as (_ & _ & I1 & N1 & Lq & F1).
  assert (P1 : forall p, live h p -> look h1 p = look h p) by (intros p [x Hx]; apply F1; congruence).
  destruct (IH h1 I1 A2) as (h2 & qs & -> & I2 & ND & Nn & P2 & FA). exists h2, (q :: qs).
  split; [reflexivity|]. split; [exact I2|]. split; [|split; [|split]].
  - constructor; [|exact ND]. intros Hin. specialize (Nn _ Hin). congruence.
  - intros q' [<-|Hin]; [exact N1|]. specialize (Nn _ Hin). destruct (Nat.eq_dec q' q) as [->|N]; [congruence|]. now rewrite <- (F1 q' N).
  - intros p Hp. rewrite P2; [now apply P1|]. destruct Hp as [x Hx]. exists x. rewrite P1; [exact Hx|now exists x].
  - constructor; [|exact FA]. rewrite P2; [exact Lq|]. now exists (ow, ps, fl, rm, st).
Qed.

Lemma look_all_ok (h : heap) l qs : Forall2 (fun x q => look h q = Some x) l qs -> look_all V h qs = l.
Proof. induction 1 as [|x q l qs E _ IH]; [reflexivity|]. cbn. unfold look_all in IH. now rewrite E, IH. Qed.

(** ** What fit can do to the parts, whatever leastsq does *)
Definition reach (h h' : heap) : Prop := forall p x, look h p = Some x -> exists x', look h' p = Some x' /\ refitted x x'.

Lemma norm_reach ms : norm_keeps_length V X W fn -> forall h, heap_ok h -> NoDup ms -> (forall p, In p ms -> live h p) ->
  let h' := fst (norm_loop V X W fn h ms) in
  forall p ow ps fl rm st, look h p = Some (ow, ps, fl, rm, st) ->
    look h' p = look h p \/ (In p ms /\ exists a, f_norm (fn ow) ps = Ok a /\ look h' p = Some (ow, a, fl, rm, st)).
Proof.
  intros NK. induction ms as [|q ms IH]; intros h I ND HL h' p ow ps fl rm st L; [now left|].
  unfold h'. cbn [norm_loop]. inversion ND as [|? ? NI ND']; subst.
  destruct (HL q (or_introl eq_refl)) as [[[[[qw qs] qf] qr] qt] LQ].
  pose proof (normalize_cases V X W fn h q qw qs qf qr qt NK I LQ) as U.
  destruct (f_norm (fn qw) qs) as [a|e] eqn:EN; [|rewrite U; now left].
  destruct U as (h1 & -> & I1 & L1 & O1).
  assert (HL1 : forall p0, In p0 ms -> live h1 p0).
  { intros p0 H0. destruct (HL p0 (or_intror H0)) as [x Hx]. exists x. rewrite O1; [exact Hx|]. intros ->. contradiction. }
  destruct (Nat.eq_dec p q) as [->|N].
  - right. split; [now left|]. rewrite L in LQ. injection LQ as <- <- <- <- <-. exists a. split; [exact EN|].
    destruct (norm_loop_ok V X W fn ms h1 NK I1 ND' HL1) as (_ & F & _). rewrite (F q NI). exact L1.
  - destruct (IH h1 I1 ND' HL1 p ow ps fl rm st) as [E|(Hp & b & E1 & E2)].
    + now rewrite O1.
    + left. rewrite E. now apply O1.
    + right. split; [now right|]. exists b. auto.
Qed.

Lemma sbp_reach h h' : (forall p, same_but_pars V (look h p) (look h' p)) -> reach h h'.
Proof.
  intros S p x L. specialize (S p). rewrite L in S. destruct x as [[[[ow ps] fl] rm] st]. destruct (look h' p) as [[[[[ow' ps'] fl'] rm'] st']|]; cbn in S; [|contradiction].
  destruct S as (-> & -> & -> & -> & E & F). eexists. split; [reflexivity|]. exists ps', ps'. auto.
Qed.
Lemma sbp_norm_reach h h1 h2 :
  (forall p, same_but_pars V (look h p) (look h1 p)) ->
  (forall p ow ps fl rm st, look h1 p = Some (ow, ps, fl, rm, st) ->
     look h2 p = look h1 p \/ exists a, f_norm (fn ow) ps = Ok a /\ look h2 p = Some (ow, a, fl, rm, st)) -> reach h h2.
Proof.
  intros S N p x L. specialize (S p). rewrite L in S. destruct x as [[[[ow ps] fl] rm] st]. destruct (look h1 p) as [[[[[ow' ps'] fl'] rm'] st']|] eqn:L1; cbn in S; [|contradiction].
  destruct S as (-> & -> & -> & -> & E & F). destruct (N _ _ _ _ _ _ L1) as [E2|(a & EA & E2)].
  - rewrite E2, L1. eexists. split; [reflexivity|]. exists ps', ps'. auto.
  - rewrite E2. eexists. split; [reflexivity|]. exists a, ps'. auto.
Qed.

Lemma finish_reach h0 h ms out wc :
  norm_keeps_length V X W fn -> heap_ok h -> NoDup ms -> (forall p, In p ms -> live h p) ->
  (forall p, same_but_pars V (look h0 p) (look h p)) -> reach h0 (fst (fit_finish V X W isnan fn h ms out wc)).
Proof.
  intros NK I ND HL S0. destruct out as [x ier pc|e]; cbn [fit_finish]; [|now apply sbp_reach].
  destruct (pack_frame V X W fn isnan h ms x I HL) as (I1 & F1 & S1 & _).
  destruct (pack V X W isnan fn h ms x) as [h1 [[]|e]]; cbn [fst] in *.
  2:{ apply sbp_reach. intros p. eapply same_but_pars_trans; eauto. }
  assert (S2 : forall p, same_but_pars V (look h0 p) (look h1 p)) by (intros p; eapply same_but_pars_trans; eauto).
  destruct (negb _); [now apply sbp_reach|].
  assert (HL1 : forall p, In p ms -> live h1 p) by (intros p Hp; eapply same_live; [apply S1|auto]).
  pose proof (norm_reach ms NK h1 I1 ND HL1) as NR. cbv zeta in NR.
  assert (R : reach h0 (fst (norm_loop V X W fn h1 ms))).
  { apply (sbp_norm_reach h0 h1 _ S2). intros p ow ps fl rm st L. destruct (NR p ow ps fl rm st L) as [E|(_ & E)]; [now left|now right]. }
  destruct (norm_loop V X W fn h1 ms) as [h2 [[]|e]]; cbn [fst] in *; [destruct (wc && negb pc); exact R|exact R].
Qed.

Lemma fit_reach h ms n wc t1 t2 :
  norm_keeps_length V X W fn -> heap_ok h -> NoDup ms -> (forall p, In p ms -> live h p) ->
  reach h (fst (Parts.fit V X W isnan fn h ms n wc t1 t2)).
Proof.
  intros NK I ND HL. unfold Parts.fit.
  assert (R0 : reach h h) by (apply sbp_reach; intros; apply same_but_pars_refl).
  destruct (unpack V h ms) as [fp|e]; [|exact R0]. destruct (_ <=? _); [exact R0|]. destruct (_ =? _); [exact R0|].
  destruct (run_lsq_frame V X W fn isnan ms (fst t1) h (snd t1) I HL) as (I1 & F1 & S1 & _).
  destruct (run_lsq V X W isnan fn h ms (fst t1) (snd t1)) as [h1 o1]. cbn [fst snd] in *.
  assert (HL1 : forall p, In p ms -> live h1 p) by (intros p Hp; eapply same_live; [apply S1|auto]).
  assert (R1 : reach h h1) by now apply sbp_reach.
  destruct o1 as [x ier pc|e]; [now apply finish_reach|]. destruct e; try exact R1.
  destruct (run_lsq_frame V X W fn isnan ms (fst t2) h1 (snd t2) I1 HL1) as (I2 & F2 & S2 & _).
  destruct (run_lsq V X W isnan fn h1 ms (fst t2) (snd t2)) as [h2 o2]. cbn [fst snd] in *.
  apply finish_reach; try assumption.
  - intros p Hp. eapply same_live; [apply S2|auto].
  - intros p. eapply same_but_pars_trans; eauto.
Qed.

Lemma reach_all h h' l qs : Forall2 (fun x q => look h q = Some x) l qs -> reach h h' ->
  exists l', Forall2 (fun x q => look h' q = Some x) l' qs /\ Forall2 refitted l l'.
Proof.
  intros F R. induction F as [|x q l qs E _ (l' & F1 & F2)]; [exists []; split; constructor|].
  destruct (R q x E) as (x' & E' & RF). exists (x' :: l'). split; constructor; auto.
Qed.

Lemma refitted_refl x : refitted x x.
Proof. destruct x as [[[[ow ps] fl] rm] st]. exists ps, ps. auto. Qed.
Lemma refitted_all l : Forall2 refitted l l.
Proof. induction l; constructor; auto using refitted_refl. Qed.

Lemma adm_false l strict : forallb (admissible V X W isnan fn strict) l = true -> forallb (admissible V X W isnan fn false) l = true.
Proof.
  intros A. rewrite forallb_forall in *. intros x Hx. specialize (A x Hx). destruct x as [[[[ow ps] fl] rm] st]. cbn in *.
  apply andb_true_iff in A as [A _]. now rewrite A.
Qed.

(** The engine call written with the heap: used by all the theorems. *)
Lemma engine_cases strict l1 l2 m b c n :
  norm_keeps_length V X W fn ->
  let all := m ++ match b with Some x => [x] | None => [] end in
  (parts_engine strict l1 l2 m b c n = ((m, b), Err FitError) /\ forallb (admissible V X W isnan fn strict) all = false) \/
  exists h qs l', forallb (admissible V X W isnan fn strict) all = true /\ heap_ok h /\ NoDup qs /\ Forall2 (fun x q => look h q = Some x) all qs /\
    let r := Parts.fit V X W isnan fn h qs (length (adat (c_r c))) false (l1 all c n) (l2 all c n) in
    Forall2 (fun x q => look (fst r) q = Some x) l' qs /\ Forall2 refitted all l' /\
    parts_engine strict l1 l2 m b c n = ((firstn (length m) l', match b with Some _ => nth_error l' (length m) | None => None end), snd r).
Proof.
  intros NK all. unfold EngineLink.parts_engine. fold all. destruct (forallb _ all) eqn:A; cbn [negb]; [|left; auto]. right.
  destruct (build_ok all (empty_heap V) (empty_ok V X W fn) (adm_false _ _ A)) as (h & qs & -> & I & ND & _ & _ & F).
  assert (HL : forall p, In p qs -> live h p).
  { intros p Hp. clear -F Hp. induction F as [|x q l qs E _ IH]; [destruct Hp|]. destruct Hp as [<-|Hp]; [now exists x|auto]. }
  pose proof (fit_reach h qs (length (adat (c_r c))) false (l1 all c n) (l2 all c n) NK I ND HL) as R.
  destruct (reach_all _ _ _ _ F R) as (l' & F1 & F2).
  exists h, qs, l'. split; [reflexivity|]. split; [exact I|]. split; [exact ND|]. split; [exact F|]. cbv zeta.
  destruct (Parts.fit V X W isnan fn h qs (length (adat (c_r c))) false (l1 all c n) (l2 all c n)) as [h' out]. cbn [fst snd] in *.
  split; [exact F1|]. split; [exact F2|]. now rewrite (look_all_ok _ _ _ F1).
Qed.

Lemma f2_len {A B} (R : A -> B -> Prop) l l' : Forall2 R l l' -> length l' = length l.
Proof. induction 1; cbn; lia. Qed.
Lemma split_refitted m (b : option cont) l' : Forall2 refitted (m ++ match b with Some x => [x] | None => [] end) l' ->
  Forall2 refitted m (firstn (length m) l') /\ (forall x, b = Some x -> exists x', nth_error l' (length m) = Some x' /\ refitted x x').
Proof.
  intros F. apply Forall2_app_inv_l in F as (a & t & Fa & Ft & ->). pose proof (f2_len _ _ _ Fa) as LA. rewrite <- LA.
  rewrite firstn_app, Nat.sub_diag, firstn_all, app_nil_r. split; [exact Fa|]. intros x ->. inversion Ft as [|? x' ? t' R1 R2]; subst.
  inversion R2; subst. exists x'. split; [|exact R1]. rewrite nth_error_app2 by lia. now rewrite Nat.sub_diag.
Qed.

(** ** C221 *)

(** Whatever leastsq does, the peaks come back in number and order with owner, flags and
    switches, and with the parameters held fixed; so does the baseline. *)
Theorem C221_same_parts :
  norm_keeps_length V X W fn ->
  forall strict l1 l2 m b c n ps b' out,
    parts_engine strict l1 l2 m b c n = ((ps, b'), out) ->
    Forall2 refitted m ps /\ (b = None -> b' = None) /\
    (forall x, b = Some x -> exists x', b' = Some x' /\ refitted x x').
Proof.
  intros NK strict l1 l2 m b c n ps b' out E. destruct (engine_cases strict l1 l2 m b c n NK) as [[E1 _]|(h & qs & l' & _ & _ & _ & _ & _ & F & E1)]; rewrite E1 in E; injection E as <- <- <-.
  - split; [apply refitted_all|]. split; [auto|]. intros x ->. exists x. split; [reflexivity|apply refitted_refl].
  - destruct (split_refitted _ _ _ F) as (FM & FB). split; [exact FM|]. split; [now intros ->|]. intros x ->. exact (FB x eq_refl).
Qed.

Lemma mask_get_in {A} (fl : list bool) : forall (ps : list A) i v, nth_error fl i = Some true -> nth_error ps i = Some v -> In v (mask_get ps fl).
Proof.
  induction fl as [|b fl IH]; intros [|x ps] [|i] v H1 H2; try discriminate; cbn in *.
  - injection H1 as ->. injection H2 as ->. now left.
  - destruct b; [right|]; eauto.
Qed.

Lemma no_nan_in l : existsb isnan l = false <-> forall v, In v l -> isnan v = false.
Proof.
  split.
  - intros E v Hv. destruct (isnan v) eqn:N; [|reflexivity]. assert (existsb isnan l = true) by (apply existsb_exists; eauto). congruence.
  - intros H. destruct (existsb isnan l) eqn:N; [|reflexivity]. apply existsb_exists in N as (v & Hv & N). rewrite (H v Hv) in N. discriminate.
Qed.

(** Normal forms of numbers are numbers. *)
Definition norm_numbers : Prop := forall ow l a, f_norm (fn ow) l = Ok a -> existsb isnan l = false -> existsb isnan a = false.

Lemma total_free_all h l qs : Forall2 (fun x q => look h q = Some x) l qs ->
  total_free V h qs = list_sum (map (fun y : cont => let '(_, _, fl, _, _) := y in length (filter (fun b => b) fl)) l).
Proof.
  unfold total_free. induction 1 as [|x q l qs E _ IH]; [reflexivity|]. cbn [map list_sum fold_right]. unfold list_sum in IH. rewrite IH.
  unfold nfree_of. rewrite E. destruct x as [[[[ow ps] fl] rm] st]. reflexivity.
Qed.

Lemma f2_pair (h h' : heap) l l' qs : Forall2 (fun x q => look h q = Some x) l qs -> Forall2 (fun x q => look h' q = Some x) l' qs ->
  forall x, In x l' -> exists q, In q qs /\ look h' q = Some x /\ exists y, In y l /\ look h q = Some y.
Proof.
  intros F. revert l'. induction F as [|y q l qs E _ IH]; intros l' F' x Hx; inversion F' as [|x0 ? l0 ? E0 F0]; subst; [destruct Hx|].
  destruct Hx as [->|Hx]; [exists q; split; [now left|]; split; [exact E0|]; exists y; split; [now left|exact E]|].
  destruct (IH l0 F0 x Hx) as (q' & A & B & y' & C & D). exists q'. split; [now right|]. split; [exact B|]. exists y'. split; [now right|exact D].
Qed.

Lemma fit_numbers h l qs n t1 t2 l' :
  norm_keeps_length V X W fn -> norm_numbers -> heap_ok h -> NoDup qs ->
  Forall2 (fun x q => look h q = Some x) l qs ->
  (forall x ier pc, snd t1 = LDone V x ier pc -> length x = total_free V h qs) ->
  (forall x ier pc, snd t2 = LDone V x ier pc -> length x = total_free V h qs) ->
  (forall x, In x l -> has_nan V isnan x = false) ->
  snd (Parts.fit V X W isnan fn h qs n false t1 t2) = Ok tt ->
  Forall2 (fun x q => look (fst (Parts.fit V X W isnan fn h qs n false t1 t2)) q = Some x) l' qs ->
  forall x, In x l' -> has_nan V isnan x = false.
Proof.
  intros NK NN I ND F H1 H2 ON E F' x Hx.
  assert (HL : forall p, In p qs -> live h p).
  { intros p Hp. clear -F Hp. induction F as [|y q l qs E _ IH]; [destruct Hp|]. destruct Hp as [<-|Hp]; [now exists y|auto]. }
  assert (SAME : fst (Parts.fit V X W isnan fn h qs n false t1 t2) = h -> has_nan V isnan x = false).
  { intros EH. rewrite EH in F'. apply ON. assert (l' = l); [|now subst]. clear -F F'. revert l' F'. induction F as [|y q l qs E _ IH]; intros l' F'; inversion F'; subst; [reflexivity|]. f_equal; [congruence|auto]. }
  assert (EX : exists q, In q qs /\ look (fst (Parts.fit V X W isnan fn h qs n false t1 t2)) q = Some x /\ exists y, In y l /\ look h q = Some y).
  { exact (f2_pair _ _ _ _ _ F F' x Hx). }
  destruct (Nat.eq_dec (total_free V h qs) 0) as [Z|Z].
  { apply SAME. unfold Parts.fit. destruct (unpack V h qs) as [fp|] eqn:EU; [|reflexivity].
    assert (LF : length fp = 0). { destruct qs as [|q0 qs']; [discriminate|]. assert (EF : fp = concat (map (compress V h) (q0 :: qs'))) by (unfold unpack in EU; congruence). rewrite EF. rewrite (unpack_concat_len V X W fn h _ I HL). exact Z. }
    rewrite LF. destruct (n <=? 0); reflexivity. }
  destruct (le_lt_dec n (total_free V h qs)) as [LE|LT].
  { apply SAME. unfold Parts.fit. destruct (unpack V h qs) as [fp|] eqn:EU; [|reflexivity].
    assert (LF : length fp = total_free V h qs). { destruct qs as [|q0 qs']; [discriminate|]. assert (EF : fp = concat (map (compress V h) (q0 :: qs'))) by (unfold unpack in EU; congruence). rewrite EF. exact (unpack_concat_len V X W fn h _ I HL). }
    rewrite LF. destruct (Nat.leb_spec n (total_free V h qs)); [reflexivity|lia]. }
  pose proof (fit_outcome V X W isnan fn h qs n false t1 t2 NK I ND HL H1 H2 ltac:(lia)) as O.
  destruct (Parts.fit V X W isnan fn h qs n false t1 t2) as [h' out]. cbn [fst snd] in *. subst out. destruct O as (_ & t & xs & ier & pc & _ & _ & _ & NX & _ & (ps1 & C & D & _)).
  destruct EX as (q & Hq & Lq & y & Hy & Ly). destruct y as [[[[ow ps] fl] rm] st]. destruct (D q ow ps fl rm st Hq Ly) as (L1 & FX & a & EN & LA).
  rewrite LA in Lq. injection Lq as <-. cbn. apply (NN _ _ _ EN). apply no_nan_in. intros v Hv.
  apply In_nth_error in Hv as (i & Hi).
  destruct (look_len V X W fn h q ow ps fl rm st I Ly) as (LP & LFl).
  assert (IL : i < length fl) by (rewrite LFl, <- LP, <- L1; apply nth_error_Some; congruence).
  destruct (nth_error fl i) as [[|]|] eqn:EF; [| |apply nth_error_None in EF; lia].
  - apply (proj1 (no_nan_in xs) NX). rewrite <- C. apply in_concat. exists (mask_get (ps1 q) (flags_of V h q)). split; [apply in_map_iff; exists q; auto|].
    unfold flags_of. rewrite Ly. eapply mask_get_in; eauto.
  - rewrite (FX i EF) in Hi. specialize (ON _ Hy). cbn in ON. apply (proj1 (no_nan_in ps) ON). eapply nth_error_In; eauto.
Qed.

(** A successful fit leaves no NaN parameter in peaks or baseline, if there was none. *)
Theorem C221_numbers :
  norm_keeps_length V X W fn -> norm_numbers ->
  forall l1 l2 m b c n ps b', answers_fit l1 -> answers_fit l2 ->
    parts_engine true l1 l2 m b c n = ((ps, b'), Ok tt) ->
    forall x, In x ps \/ b' = Some x -> has_nan V isnan x = false.
Proof.
  intros NK NN l1 l2 m b c n ps b' A1 A2 E x Hx. destruct (engine_cases true l1 l2 m b c n NK) as [[E1 _]|(h & qs & l' & AD & I & ND & F0 & F & _ & E1)]; rewrite E1 in E; [discriminate|].
  injection E as <- <- ER. set (all := m ++ _) in *.
  assert (ON : forall y, In y all -> has_nan V isnan y = false).
  { intros y Hy. rewrite forallb_forall in AD. specialize (AD y Hy). destruct y as [[[[ow ps] fl] rm] st]. cbn in AD |- *.
    apply andb_true_iff in AD as [_ AD]. now apply negb_true_iff in AD. }
  assert (IN : In x l').
  { destruct Hx as [Hx|Hx]; [rewrite <- (firstn_skipn (length m) l'); apply in_or_app; now left|]. destruct b; [|discriminate]. eapply nth_error_In; eauto. }
  refine (fit_numbers h all qs _ _ _ l' NK NN I ND F0 _ _ ON ER F x IN); intros xs ier pc EL; rewrite (total_free_all _ _ _ F0); [eapply A1|eapply A2]; eauto.
Qed.

(** With Jacobians, numbers and normal forms, only SrMiseFitError is raised. *)
Theorem C221_only_fit_errors :
  norm_keeps_length V X W fn -> (forall ow l, exists a, f_norm (fn ow) l = Ok a) ->
  forall strict l1 l2 m b c n r e, answers_fit l1 -> answers_fit l2 ->
    answers_numbers l1 -> (forall all c0 n0, snd (l1 all c0 n0) <> LRaise V NotImplementedErr) ->
    (m <> [] \/ b <> None) -> parts_engine strict l1 l2 m b c n = (r, Err e) -> e = FitError.
Proof.
  intros NK NT strict l1 l2 m b c n r e A1 A2 N1 NJ NE E. destruct (engine_cases strict l1 l2 m b c n NK) as [[E1 _]|(h & qs & l' & AD & I & ND & F0 & F & _ & E1)]; rewrite E1 in E; injection E as _ ER; [congruence|].
  set (all := m ++ _) in *. clear E1 F AD.
  assert (HL : forall p, In p qs -> live h p).
  { intros p Hp. clear -F0 Hp. induction F0 as [|y q l qs E _ IH]; [destruct Hp|]. destruct Hp as [<-|Hp]; [now exists y|auto]. }
  assert (QN : qs <> []). { intros ->. inversion F0 as [A|]; subst. destruct m; [destruct b; [discriminate|destruct NE as [NE|NE]; apply NE; reflexivity]|discriminate]. }
  assert (EU : unpack V h qs = Ok (concat (map (compress V h) qs))) by (destruct qs; [contradiction|reflexivity]).
  set (np := length (adat (c_r c))) in *.
  destruct (Nat.eq_dec (total_free V h qs) 0) as [Z|Z].
  { unfold Parts.fit in ER. rewrite EU, (unpack_concat_len V X W fn h qs I HL), Z in ER. destruct (np <=? 0); [cbn in ER; congruence|discriminate]. }
  destruct (le_lt_dec np (total_free V h qs)) as [LE|LT].
  { unfold Parts.fit in ER. rewrite EU, (unpack_concat_len V X W fn h qs I HL) in ER. destruct (Nat.leb_spec np (total_free V h qs)); [cbn in ER; congruence|lia]. }
  assert (H1 : forall x ier pc, snd (l1 all c n) = LDone V x ier pc -> length x = total_free V h qs).
  { intros xs ier pc EL. rewrite (total_free_all _ _ _ F0). eapply A1; eauto. }
  assert (H2 : forall x ier pc, snd (l2 all c n) = LDone V x ier pc -> length x = total_free V h qs).
  { intros xs ier pc EL. rewrite (total_free_all _ _ _ F0). eapply A2; eauto. }
  pose proof (fit_outcome V X W isnan fn h qs np false _ _ NK I ND HL H1 H2 ltac:(lia)) as O.
  destruct (Parts.fit V X W isnan fn h qs np false (l1 all c n) (l2 all c n)) as [h' out]. cbn [snd] in ER. subst out. destruct O as (_ & O).
  assert (NO : ~ ((snd (l1 all c n) = LRaise V NotImplementedErr /\ (snd (l2 all c n) = LRaise V e \/ e = ValueError)) \/
      exists t x ier pc, (t = l1 all c n \/ (t = l2 all c n /\ snd (l1 all c n) = LRaise V NotImplementedErr)) /\ snd t = LDone V x ier pc /\
      ((e = ValueError /\ existsb isnan x = true) \/ (exists p ow ps1, In p qs /\ owner_is V h p ow /\ f_norm (fn ow) ps1 = Err e) \/ (e = TypeError /\ false = true /\ pc = false)))).
  { intros [[J _]|(t & x & ier & pc & [->|[_ J]] & EL & [(_ & XN)|[(p & ow & ps1 & _ & _ & NF)|(_ & K & _)]])]; try (exact (NJ _ _ _ J)); try discriminate.
    - rewrite (N1 _ _ _ _ _ _ EL) in XN. discriminate.
    - destruct (NT ow ps1) as (a & Ha). congruence. }
  destruct e; try reflexivity; exfalso; exact (NO O).
Qed.

(** ** What the rest assumed of the optimiser *)

(** What tells a peak from others: its owner, flags and switch, and - if all its parameters
    are held fixed - the normal form of its parameters. *)
Definition normal_form (ow : nat) (ps : list V) : list V := match f_norm (fn ow) ps with Ok a => a | Err _ => ps end.
Definition identity (x : cont) : nat * list bool * bool * option (list V) :=
  let '(ow, ps, fl, _, st) := x in (ow, fl, st, if existsb (fun b => b) fl then None else Some (normal_form ow ps)).
Definition norm_idempotent : Prop := forall ow l a, f_norm (fn ow) l = Ok a -> f_norm (fn ow) a = Ok a.

Lemma nth_error_ext {A} (l l' : list A) : (forall i, nth_error l i = nth_error l' i) -> l = l'.
Proof.
  revert l'. induction l as [|a l IH]; intros [|b l'] H; [reflexivity|specialize (H 0); discriminate|specialize (H 0); discriminate|].
  f_equal; [specialize (H 0); now injection H|]. apply IH. intros i. exact (H (S i)).
Qed.
Lemma refitted_identity x x' : norm_keeps_length V X W fn -> norm_idempotent ->
  (let '(_, ps, fl, _, _) := x in length fl = length ps) -> refitted x x' -> identity x' = identity x.
Proof.
  intros NK NI LX R. destruct x as [[[[ow ps] fl] rm] st]. destruct R as (ps' & ps1 & -> & L1 & FX & C). cbn. f_equal.
  destruct (existsb _ fl) eqn:EF; [reflexivity|]. f_equal.
  assert (E1 : ps1 = ps).
  { apply nth_error_ext. intros i. destruct (nth_error fl i) as [[|]|] eqn:Ei.
    - exfalso. assert (existsb (fun b => b) fl = true) by (apply existsb_exists; exists true; split; [eapply nth_error_In; eauto|reflexivity]). congruence.
    - now apply FX.
    - apply nth_error_None in Ei. rewrite !(proj2 (nth_error_None _ _)); [reflexivity|lia|lia]. }
  subst ps1. destruct C as [->|C]; [reflexivity|]. unfold normal_form. now rewrite C, (NI _ _ _ C).
Qed.

Section World.
Context {Q : Type}.
Variable w : world cont cont Q.
Variable strict : bool.
Variables l1 l2 : list cont -> cluster -> nat -> lsq V.
Hypothesis PW : parts_world V X W isnan fn strict l1 l2 w.
Hypothesis NK : norm_keeps_length V X W fn.

Theorem C221_shape_assumption : norm_idempotent -> engine_shape w identity.
Proof.
  intros NI m b c n ps b' out E. destruct PW as (EE & ER & _). rewrite EE in E.
  destruct (engine_cases strict l1 l2 m b c n NK) as [[E1 _]|(h & qs & l' & AD & _ & _ & _ & _ & F & E1)]; rewrite E1 in E; injection E as <- <- <-.
  - clear. induction m; constructor; auto.
  - destruct (split_refitted _ _ _ F) as (FM & _). rewrite forallb_app in AD. apply andb_true_iff in AD as [AD _]. clear -FM AD NK NI ER.
    induction FM as [|x x' m l R _ IH]; [constructor|]. cbn [forallb] in AD. apply andb_true_iff in AD as [A1 A2]. constructor; [|now apply IH].
    split.
    + apply refitted_identity; try assumption. destruct x as [[[[ow ps] fl] rm] st]. cbn in A1. apply andb_true_iff in A1 as [A1 _]. apply andb_true_iff in A1 as [L1 L2].
      apply Nat.eqb_eq in L1, L2. congruence.
    + destruct x as [[[[ow ps] fl] rm] st]. destruct R as (ps' & ps1 & -> & _). now rewrite !ER.
Qed.

Theorem C221_nan_assumption : strict = true -> norm_numbers -> answers_fit l1 -> answers_fit l2 -> engine_no_nan w.
Proof.
  intros ST NN A1 A2 m b c n ps b' E p Hp. destruct PW as (EE & _ & EN). rewrite EE, ST in E.
  pose proof (C221_numbers NK NN l1 l2 m b c n ps b' A1 A2 E p (or_introl Hp)) as H. destruct p as [[[[ow pp] fl] rm] st]. rewrite EN. exact H.
Qed.

Theorem C221_error_assumption : (forall ow l, exists a, f_norm (fn ow) l = Ok a) -> answers_fit l1 -> answers_fit l2 ->
  answers_numbers l1 -> (forall all c n, snd (l1 all c n) <> LRaise V NotImplementedErr) -> engine_tame w.
Proof.
  intros NT A1 A2 N1 NJ m b c n ps b' e NE E. destruct PW as (EE & _). rewrite EE in E.
  exact (C221_only_fit_errors NK NT strict l1 l2 m b c n _ e A1 A2 N1 NJ (or_introl NE) E).
Qed.

(** Without peaks and without a baseline ModelParts.fit raises ValueError: this is how an
    empty list of arrays is refused by numpy's concatenate. *)
Theorem C221_empty_model_valueerror : forall c n, snd (w_engine w [] None c n) = Err ValueError.
Proof. intros c n. destruct PW as (EE & _). rewrite EE. reflexivity. Qed.
End World.

(** ** Consequences for the extraction *)
Section Extraction.
Context {Q : Type}.
Variable T : xtools cont cont Q.
Variable bl : cont.
Variable cres : Z.
Variable em : nat.
Variable pf : list nat.
Variables l1 l2 : list cont -> cluster -> nat -> lsq V.
Hypothesis NK : norm_keeps_length V X W fn.
Hypothesis NI : norm_idempotent.

(** The search for peaks ends, whatever leastsq does. *)
Theorem C221_extraction_ends :
  forall strict, parts_world V X W isnan fn strict l1 l2 (t_w T) -> sane T bl ->
  forall x y e ip, DataClustersSpec.increasing x -> x <> [] -> length y = length x -> length e = length x ->
    extract T bl cres em pf 3 1 x y e ip <> None.
Proof.
  intros strict PW SN x y e ip HI HN LY LE.
  exact (C50_at_most_three_levels T bl cres em pf identity SN (C221_shape_assumption _ _ _ _ PW NK NI) 3 1 x y e ip ltac:(lia) ltac:(lia) HI HN LY LE).
Qed.

(** An initial peak that is not removable is in the result: with its owner, its free flags
    and its switches, and, if all its parameters are held fixed, with its parameters up to
    the owner's normal form. *)
Theorem C221_protected_initial_peak :
  parts_world V X W isnan fn true l1 l2 (t_w T) -> norm_numbers -> answers_fit l1 -> answers_fit l2 -> sane T bl ->
  forall fuel depth x y e ip c,
    DataClustersSpec.increasing x -> x <> [] -> length y = length x -> length e = length x ->
    extract T bl cres em pf fuel depth x y e ip = Some (Ok c) ->
    forall ow ps fl st, In (ow, ps, fl, false, st) ip ->
      exists ps', In (ow, ps', fl, false, st) (c_model c) /\
        ((forall b, In b fl -> b = false) -> normal_form ow ps' = normal_form ow ps).
Proof.
  intros PW NN A1 A2 SN fuel depth x y e ip c HI HN LY LE E ow ps fl st Hp.
  pose proof (proj1 (proj2 PW)) as ER.
  destruct (C69_protected_initial_peaks_survive T bl cres em pf identity SN (C221_shape_assumption _ _ _ _ PW NK NI) (C221_nan_assumption _ _ _ _ PW NK eq_refl NN A1 A2)
    fuel depth x y e ip c HI HN LY LE E _ Hp (ER _ _ _ _ _)) as ([[[[ow' ps'] fl'] rm'] st'] & Hq & LQ & RQ).
  rewrite ER in RQ. subst rm'. unfold identity in LQ. injection LQ as -> -> -> LF. exists ps'. split; [exact Hq|]. intros AF.
  assert (EF : existsb (fun b => b) fl = false).
  { destruct (existsb (fun b => b) fl) eqn:EX; [|reflexivity]. apply existsb_exists in EX as (b & Hb & ->). discriminate (AF _ Hb). }
  rewrite EF in LF. now injection LF.
Qed.

(** An extraction ends with a model, or with ValueError. *)
Theorem C221_model_or_valueerror :
  forall strict, let w := t_w T in
  parts_world V X W isnan fn strict l1 l2 w -> (forall ow l, exists a, f_norm (fn ow) l = Ok a) -> answers_fit l1 -> answers_fit l2 ->
  answers_numbers l1 -> (forall all c n, snd (l1 all c n) <> LRaise V NotImplementedErr) ->
  sane T bl -> pf <> [] -> (0 <= cres)%Z ->
  (* the estimator and the adjustment at a border *)
  (forall c, match w_estimate w c with Err e => e = EstimationError | Ok (Some p) => w_removable w p = true | Ok None => True end) ->
  (forall a b m, (forall p, In p m -> w_removable w p = true) -> forall p, In p (w_match_at w a b m) -> w_removable w p = true) ->
  argmax_ok (w_qlt w) (t_qargmax T) -> (forall a b, w_qlt w a b = true -> w_qlt w b a = false) ->
  forall x y e ip,
    DataClustersSpec.increasing x -> x <> [] -> length y = length x -> length e = length x ->
    (forall p, In p ip -> w_removable w p = true) ->
    (exists c, extract T bl cres em pf 3 1 x y e ip = Some (Ok c) /\ forall p, In p (c_model c) -> w_removable w p = true) \/
    extract T bl cres em pf 3 1 x y e ip = Some (Err ValueError).
Proof.
  intros strict w PW NT A1 A2 N1 NJ SN PF HC EST MA AM ASY x y e ip HI HN LY LE AI.
  apply (ExtractTotalProps.C201_model_or_valueerror T bl cres em pf SN); try assumption; try lia.
  split.
  { intros m b c n ps b' out E. pose proof (C221_shape_assumption _ _ _ _ PW NK NI m b c n ps b' out E) as F.
    clear - F. induction F as [|p q l l' [_ H] _ IH]; constructor; [split; [reflexivity|exact H]|exact IH]. }
  split; [|auto]. intros m b c n. destruct (w_engine (t_w T) m b c n) as [r o] eqn:E.
  destruct o as [[]|er]; [now left|right]. pose proof PW as PW'. destruct PW' as (EE & _).
  assert (D : (m = [] /\ b = None) \/ (m <> [] \/ b <> None)).
  { destruct m; [|right; left; discriminate]. destruct b; [right; right; discriminate|left; auto]. }
  destruct D as [[-> ->]|D].
  - right. split; [reflexivity|]. rewrite EE in E. apply (f_equal snd) in E. symmetry. exact E.
  - left. rewrite EE in E. cbn [snd]. f_equal. exact (C221_only_fit_errors NK NT strict l1 l2 m b c n _ er A1 A2 N1 NJ D E).
Qed.

(** Pruning returns normally. *)
Theorem C221_prune_returns :
  forall (qk : cluster -> nat -> Q) (qargmax : list Q -> nat) strict, let w := t_w T in
  parts_world V X W isnan fn strict l1 l2 w -> (forall ow l, exists a, f_norm (fn ow) l = Ok a) -> answers_fit l1 -> answers_fit l2 ->
  answers_numbers l1 -> (forall all c n, snd (l1 all c n) <> LRaise V NotImplementedErr) ->
  ModelClusterProofs.argsort_ok (w_argsort w) -> argmax_ok (w_qlt w) qargmax -> (forall a b, w_qlt w a b = true -> w_qlt w b a = false) ->
  (forall x, (w_rnd w x < 0)%Z <-> (x < 0)%Z) -> (forall b r, length (w_blvalue w b r) = length r) ->
  forall (c : cluster) fuel, length (c_model c) < fuel ->
    length (adat (c_y c)) = length (adat (c_r c)) -> length (adat (c_e c)) = length (adat (c_r c)) ->
    c_start c < c_stop c <= length (adat (c_r c)) ->
    (forall p, In p (c_model c) -> w_removable w p = true) ->
    exists m, prune w qk qargmax fuel c = Some (m, Ok tt).
Proof.
  intros qk qargmax strict w PW NT A1 A2 N1 NJ AS AM ASY RO BL. apply (C42_normal_return w qk qargmax identity); try assumption.
  - exact (C221_shape_assumption _ _ _ _ PW NK NI).
  - exact (C221_error_assumption _ _ _ _ PW NK NT A1 A2 N1 NJ).
Qed.
End Extraction.
End Link.

(** ** The hypotheses are satisfiable and the conclusions are not trivial *)
Open Scope Z_scope.
(** Numbers are integers or NaN; function 0 is a peak (position, height) whose normal form
    has a height that is not negative, function 1 a constant baseline. *)
Definition num := option Z.
Definition lnan (v : num) : bool := match v with None => true | Some _ => false end.
Definition norm0 (l : list num) : list num :=
  match l with a :: h :: r => a :: option_map Z.abs h :: r | _ => l end.
Definition fns (i : nat) : func num Z Z :=
  match i with
  | O => mkFunc 2 (fun _ r => map (fun _ => 0) r) (fun l => Ok (norm0 l))
  | _ => mkFunc 1 (fun _ r => map (fun _ => 0) r) (fun l => Ok l)
  end.
Definition pk := content num.
Definition peak_at (x h : Z) (free removable : bool) : pk := (0%nat, [Some x; Some h], [free; free], removable, false).
Definition level (v : Z) (free : bool) : pk := (1%nat, [Some v], [free], false, false).
(** A leastsq that tries other numbers and answers with those it started from. *)
Definition start_of (all : list pk) : list num := concat (map (fun x : pk => let '(_, ps, fl, _, _) := x in mask_get ps fl) all).
Definition tries (all : list pk) (c : cluster pk pk) (n : nat) : lsq num :=
  if forallb (admissible num Z Z lnan fns true) all
  then ([map (option_map (fun v => v - 7)) (start_of all); map (option_map (fun v => v + 1)) (start_of all)], LDone num (start_of all) 1 true)
  else ([], LRaise num ValueError).
Definition px (p : pk) : num := let '(_, ps, _, _, _) := p in nth 0 ps None.
Definition ph (p : pk) : Z := let '(_, ps, _, _, _) := p in match nth 1 ps None with Some h => h | None => 0 end.
Definition pval (p : pk) (r : list Z) : list Z := map (fun x => if pos_eq (Some x) (px p) then ph p else 0) r.
Definition bval (b : pk) (r : list Z) : list Z := map (fun _ => match px b with Some v => v | None => 0 end) r.
Definition misfit (c : cluster pk pk) (k : nat) : Z :=
  - fold_right Z.add (Z.of_nat k) (map (fun xy => Z.abs (snd xy - hd 0 (match c_base c with Some b => bval b [fst xy] | None => [0] end)
       - fold_right Z.add 0 (map (fun p => hd 0 (pval p [fst xy])) (c_model c)))) (combine (r_cluster c) (y_cluster c))).
Definition highest (c : cluster pk pk) : result (option pk) :=
  match combine (r_cluster c) (y_cluster c) with
  | [] => Err EstimationError
  | a :: r => let m := fold_left (fun b q => if snd b <? snd q then q else b) r a in
              Ok (Some (peak_at (fst m) ((snd m + 1) / 2) true true))
  end.
Definition lw : world pk pk Z :=
  mkWorld (fun x => x) px (fun p => let '(_, _, _, rm, _) := p in rm) (has_nan num lnan)
    pval (fun cf p => 2%nat) (fun cf b => 1%nat) bval (fun _ _ => true) ModelClusterProofs.isort (fun _ => 2%nat)
    (fun c => misfit c 0) Z.ltb (fun _ c _ => (length (c_model c) =? 0)%nat) highest
    (parts_engine num Z Z lnan fns true tries tries) (fun a b => (a + b) / 2) (fun _ _ m => m).
Definition ltools : xtools pk pk Z :=
  mkTools lw misfit zargmax DataClustersExamples.isort (fun _ n => Z.of_nat n) (fun z => z / 20 + 1).
Definition lshow (r : option (result (cluster pk pk))) :=
  match r with Some (Ok c) => Some (Ok (c_model c)) | Some (Err e) => Some (Err e) | None => None end.

Lemma fns_keep : norm_keeps_length num Z Z fns.
Proof. intros [|ow] l l' E; injection E as <-; [|reflexivity]. destruct l as [|a [|h r]]; reflexivity. Qed.
Lemma fns_idem : norm_idempotent num Z Z fns.
Proof.
  intros [|ow] l a E; injection E as <-; [|reflexivity]. destruct l as [|a [|[h|] r]]; try reflexivity. cbn. now rewrite Z.abs_involutive.
Qed.
Lemma fns_numbers : norm_numbers num Z Z lnan fns.
Proof.
  intros [|ow] l a E; injection E as <-; [|auto]. destruct l as [|a [|[h|] r]]; auto.
Qed.
Lemma tries_fit : answers_fit num tries.
Proof.
  intros all c n x ier pc E. unfold tries in E. destruct (forallb _ all) eqn:A; [|discriminate]. injection E as <- _ _.
  induction all as [|[[[[ow ps] fl] rm] st] all IH]; [reflexivity|]. cbn [forallb] in A. apply andb_true_iff in A as [A1 A2].
  unfold start_of. cbn [map concat]. rewrite app_length. fold (start_of all). rewrite (IH A2). cbn [list_sum fold_right]. f_equal.
  cbn in A1. apply andb_true_iff in A1 as [A1 _]. apply andb_true_iff in A1 as [L1 L2]. apply Nat.eqb_eq in L1, L2. apply mask_get_length. congruence.
Qed.
Lemma mask_get_sub {A} (ps : list A) : forall fl v, In v (mask_get ps fl) -> In v ps.
Proof. induction ps as [|a ps IH]; intros [|[|] fl] v H; cbn in *; try contradiction; [destruct H as [->|H]; [now left|]|]; right; eauto. Qed.
Lemma tries_numbers : answers_numbers num lnan tries.
Proof.
  intros all c n x ier pc E. unfold tries in E. destruct (forallb _ all) eqn:A; [|discriminate]. injection E as <- _ _.
  apply no_nan_in. intros v Hv. unfold start_of in Hv. apply in_concat in Hv as (l & Hl & Hv). apply in_map_iff in Hl as (y & <- & Hy).
  rewrite forallb_forall in A. specialize (A y Hy). destruct y as [[[[ow ps] fl] rm] st]. cbn in A. apply andb_true_iff in A as [_ A]. apply negb_true_iff in A.
  apply (proj1 (no_nan_in _ _ ps) A). now apply mask_get_sub in Hv.
Qed.
Lemma tries_jacobian : forall all c n, snd (tries all c n) <> LRaise num NotImplementedErr.
Proof. intros all c n. unfold tries. match goal with |- context[if ?b then _ else _] => destruct b end; discriminate. Qed.
Lemma lw_parts : parts_world num Z Z lnan fns true tries tries lw.
Proof. split; [reflexivity|]. split; reflexivity. Qed.
Lemma lw_sane : sane ltools (level 1 true).
Proof.
  split; [split; intros; cbn; lia|]. split; [exact ModelClusterProofs.isort_ok|]. split; [exact DataClustersExamples.isort_ok|].
  split; [reflexivity|]. split; intros; apply map_length.
Qed.

(** One fit, with the baseline: the fixed peak is put in normal form, although nothing else
    happens to it. *)
Definition lcluster : cluster pk pk := mkC [] None (mkArr 0 vx) (mkArr 1 vy) (mkArr 2 ve) 0 10 false 0 0 [].
Example C221_one_fit :
  parts_engine num Z Z lnan fns true tries tries [peak_at 5 (-3) false false; peak_at 2 (-4) true true] (Some (level 1 true)) lcluster 0 =
  (([peak_at 5 3 false false; peak_at 2 4 true true], Some (level 1 true)), Ok tt).
Proof. vm_compute. reflexivity. Qed.

(** A whole extraction with a protected, fixed peak at 5. *)
Example C221_nonvacuous :
  norm_keeps_length num Z Z fns /\ norm_idempotent num Z Z fns /\ norm_numbers num Z Z lnan fns /\ (forall ow l, exists a, f_norm (fns ow) l = Ok a) /\
  answers_fit num tries /\ answers_numbers num lnan tries /\ (forall all c n, snd (tries all c n) <> LRaise num NotImplementedErr) /\
  parts_world num Z Z lnan fns true tries tries (t_w ltools) /\ sane ltools (level 1 true) /\
  lshow (extract ltools (level 1 true) 2 0 [7%nat] 3 1 vx vy ve [peak_at 5 (-3) false false; peak_at 9 2 true true]) =
  Some (Ok [peak_at 0 8 true true; peak_at 1 4 true true; peak_at 2 8 true true; peak_at 2 16 true true; peak_at 3 4 true true;
    peak_at 3 16 true true; peak_at 3 8 true true; peak_at 3 32 true true; peak_at 5 (-3) false false; peak_at 6 20 true true;
    peak_at 6 10 true true; peak_at 7 40 true true; peak_at 7 20 true true; peak_at 9 2 true true]).
Proof.
  split; [exact fns_keep|]. split; [exact fns_idem|]. split; [exact fns_numbers|]. split; [intros [|ow] l; eexists; reflexivity|].
  split; [exact tries_fit|]. split; [exact tries_numbers|]. split; [exact tries_jacobian|]. split; [exact lw_parts|]. split; [exact lw_sane|].
  vm_compute. reflexivity.
Qed.

Print Assumptions C221_same_parts.
Print Assumptions C221_numbers.
Print Assumptions C221_only_fit_errors.
Print Assumptions C221_extraction_ends.
Print Assumptions C221_protected_initial_peak.
Print Assumptions C221_prune_returns.
Print Assumptions C221_empty_model_valueerror.
Print Assumptions C221_model_or_valueerror.

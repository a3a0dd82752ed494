(** Properties C12-C18 and the part half of C21 (modelparts.py).
    The number types, the NaN test and the table of functions are arbitrary. *)
From Verif Require Import Prelude Parts PartsProofs PartsFit.

(** A program-reachable heap: any sequence of part operations from nothing. *)
Definition reachable {V X W} (fn : nat -> func V X W) (h : heap V) : Prop :=
  exists ops, h = exec_all V X W fn (empty_heap V) ops.
(** A model: a list of distinct live parts. *)
Definition model {V} (h : heap V) (ms : list loc) : Prop :=
  NoDup ms /\ forall p, In p ms -> exists c, look V h p = Some c.
(** Number of True flags in the parts of a model. *)
Definition free_count {V} (h : heap V) (ms : list loc) : nat :=
  list_sum (map (fun p => match look V h p with
    | Some (_, _, fl, _, _) => length (filter (fun b => b) fl) | None => 0 end) ms).

Lemma reachable_ok {V X W} (fn : nat -> func V X W) h :
  norm_keeps_length V X W fn -> reachable fn h -> heap_ok V X W fn h.
Proof. intros NK [ops ->]. apply exec_all_ok; [exact NK|apply empty_ok]. Qed.

(** ** Concrete data for the examples: numbers with a NaN, two functions. *)
Definition ex_fn (i : nat) : func (option Z) Z Z :=
  let num o := match o with Some z => z | None => 0%Z end in
  match i with
  | 0 => mkFunc 3 (fun ps r => map (fun x => (num (nth 0 ps None) + num (nth 1 ps None) * x + num (nth 2 ps None))%Z) r)
           (fun ps => Ok (match ps with [a; b; c] => [a; b; option_map Z.abs c] | _ => ps end))
  | _ => mkFunc 1 (fun ps r => map (fun x => (num (nth 0 ps None) * x)%Z) r) (fun ps => Ok ps)
  end.
Definition ex_nan (o : option Z) : bool := match o with None => true | _ => false end.
Definition ex_h : heap (option Z) := exec_all _ _ _ ex_fn (empty_heap _)
  [ONew _ 0 [Some 1; Some 2; Some (-3)]%Z (Some [true; true; false]) true false;
   ONew _ 1 [Some 7]%Z None false true].
Definition ex_ms : list loc := [2; 5].
Lemma ex_reachable : reachable ex_fn ex_h. Proof. eexists; reflexivity. Qed.
Lemma ex_model : model ex_h ex_ms.
Proof.
  split; [repeat constructor; cbn; intuition congruence|].
  intros p [<-|[<-|[]]]; vm_compute; eauto.
Qed.
Lemma ex_norm : norm_keeps_length _ _ _ ex_fn.
Proof.
  intros [|ow] l l'; cbn; intros [= <-]; [|reflexivity].
  destruct l as [|? [|? [|? [|? ?]]]]; reflexivity.
Qed.

Section Props.
Variables V X W : Type.
Variable isnan : V -> bool.
Variable fn : nat -> func V X W.
Hypothesis NK : norm_keeps_length V X W fn.

(** ** C12 *)
Theorem C12_unpack_after_pack :
  forall h ms v, reachable fn h -> model h ms -> ms <> [] ->
    (forall a, In a v -> isnan a = false) -> length v = free_count h ms ->
    exists h', pack V X W isnan fn h ms v = (h', Ok tt) /\ unpack V h' ms = Ok v.
Proof.
  intros h ms v R [ND HL] Hne Hn Hv. pose proof (reachable_ok fn h NK R) as I.
  destruct (pack_loop_enough V X W fn h ms v I ND HL) as (h' & E & C).
  { unfold total_free, nfree_of, nfree. unfold free_count in Hv. lia. }
  exists h'. unfold pack. assert (EN : existsb isnan v = false).
  { destruct (existsb isnan v) eqn:E0; [|reflexivity]. apply existsb_exists in E0.
    destruct E0 as (a & Ha & Hb). rewrite Hn in Hb; auto. }
  rewrite EN. split; [exact E|]. unfold unpack. destruct ms; [contradiction|]. rewrite C.
  f_equal. apply firstn_all2. unfold total_free, nfree_of, nfree. unfold free_count in Hv. lia.
Qed.

Theorem C12_pack_after_unpack :
  forall h ms v, reachable fn h -> model h ms -> unpack V h ms = Ok v ->
    length v = free_count h ms /\
    ((exists a, In a v /\ isnan a = true) -> pack V X W isnan fn h ms v = (h, Err ValueError)) /\
    ((forall a, In a v -> isnan a = false) ->
     exists h', pack V X W isnan fn h ms v = (h', Ok tt) /\ forall p, look V h' p = look V h p).
Proof.
  intros h ms v R [ND HL] HU. pose proof (reachable_ok fn h NK R) as I.
  assert (EV : v = concat (map (compress V h) ms)) by (destruct ms; [discriminate|injection HU as <-; reflexivity]).
  split; [rewrite EV; apply (unpack_concat_len V X W fn h ms I HL)|]. split.
  - intros Ha. unfold pack. replace (existsb isnan v) with true; [reflexivity|]. symmetry. apply existsb_exists. exact Ha.
  - intros Hn. unfold pack. assert (EN : existsb isnan v = false).
    { destruct (existsb isnan v) eqn:E0; [|reflexivity]. apply existsb_exists in E0.
      destruct E0 as (a & Ha & Hb). rewrite Hn in Hb; auto. }
    rewrite EN. destruct (pack_loop_unpack V X W fn h ms I HL []) as (h' & E & _ & L).
    rewrite app_nil_r in E. exists h'. rewrite EV. auto.
Qed.

(** NaN anywhere: ValueError and no effect; values beyond the free count are ignored. *)
Theorem C12_nan_rejected :
  forall h ms v a, In a v -> isnan a = true -> pack V X W isnan fn h ms v = (h, Err ValueError).
Proof.
  intros h ms v a Ha Hn. unfold pack. replace (existsb isnan v) with true; [reflexivity|].
  symmetry. apply existsb_exists. eauto.
Qed.

Theorem C12_long_vector_prefix_used :
  forall h ms v w, reachable fn h -> model h ms -> ms <> [] ->
    (forall a, In a (v ++ w) -> isnan a = false) -> length v = free_count h ms ->
    exists h', pack V X W isnan fn h ms (v ++ w) = (h', Ok tt) /\ unpack V h' ms = Ok v.
Proof.
  intros h ms v w R [ND HL] Hne Hn Hv. pose proof (reachable_ok fn h NK R) as I.
  assert (T : total_free V h ms = length v) by (symmetry; exact Hv).
  destruct (pack_loop_enough V X W fn h ms (v ++ w) I ND HL) as (h' & E & C).
  { rewrite app_length, T. lia. }
  exists h'. unfold pack. assert (EN : existsb isnan (v ++ w) = false).
  { destruct (existsb isnan (v ++ w)) eqn:E0; [|reflexivity]. apply existsb_exists in E0.
    destruct E0 as (a & Ha & Hb). rewrite Hn in Hb; auto. }
  rewrite EN. split; [exact E|]. unfold unpack. destruct ms; [contradiction|]. rewrite C, T.
  f_equal. rewrite firstn_app, Nat.sub_diag, firstn_all. cbn. apply app_nil_r.
Qed.

(** A vector that is too short raises ValueError, except that numpy broadcasts a
    single left-over value over all (two or more) free parameters of one part. *)
Theorem C12_short_vector :
  forall h ms v, reachable fn h -> model h ms -> length v < free_count h ms ->
    (exists h', pack V X W isnan fn h ms v = (h', Err ValueError)) \/
    exists pre p post, ms = pre ++ p :: post /\ length v = free_count h pre + 1 /\
      2 <= free_count h [p] /\ free_count h post = 0.
Proof.
  intros h ms v R [ND HL] Hv. pose proof (reachable_ok fn h NK R) as I.
  destruct (pack_frame V X W fn isnan h ms v I HL) as (_ & _ & _ & E).
  destruct (pack V X W isnan fn h ms v) as [h' [[]|e]] eqn:EP; cbn in E.
  - right. unfold pack in EP. destruct (existsb isnan v); [discriminate|].
    destruct (pack_loop_short V X W fn h ms v I ND HL Hv) as (pre & p & post & A & B & C & D).
    { now rewrite EP. }
    exists pre, p, post. split; [exact A|]. split; [exact B|]. split; [|exact D].
    unfold free_count. cbn. unfold nfree_of, nfree in C. lia.
  - left. exists h'. now rewrite (E e eq_refl).
Qed.

(** ** C13 *)
Theorem C13_pack_keeps_fixed :
  forall h ms v p ow ps fl rm st, reachable fn h -> model h ms ->
    look V h p = Some (ow, ps, fl, rm, st) ->
    exists ps', look V (fst (pack V X W isnan fn h ms v)) p = Some (ow, ps', fl, rm, st) /\
      length ps' = length ps /\
      (forall i, nth_error fl i = Some false -> nth_error ps' i = nth_error ps i) /\
      (~ In p ms -> ps' = ps).
Proof.
  intros h ms v p ow ps fl rm st R [ND HL] L. pose proof (reachable_ok fn h NK R) as I.
  destruct (pack_frame V X W fn isnan h ms v I HL) as (_ & F & S & _). specialize (S p). rewrite L in S.
  set (h' := fst (pack V X W isnan fn h ms v)) in *.
  destruct (look V h' p) as [[[[[ow' ps'] fl'] rm'] st']|] eqn:L'; cbn in S; [|contradiction].
  destruct S as (-> & -> & -> & -> & A & B). exists ps'. split; [reflexivity|]. split; [exact A|]. split; [exact B|].
  intros Hp. specialize (F p Hp). rewrite L, L' in F. congruence.
Qed.

(** fit never touches owners, flags, removable flags or lengths, nor any part outside
    the model; on success a fixed parameter is rewritten only by the owner's
    normal-form conversion. *)
Theorem C13_fit_keeps_fixed_up_to_normal_form :
  forall h ms n wc t1 t2 h' res, reachable fn h -> model h ms ->
    (forall x ier pc, snd t1 = LDone V x ier pc \/ snd t2 = LDone V x ier pc -> length x = free_count h ms) ->
    0 < free_count h ms < n -> fit V X W isnan fn h ms n wc t1 t2 = (h', res) ->
    forall p ow ps fl rm st, look V h p = Some (ow, ps, fl, rm, st) ->
    exists ps', look V h' p = Some (ow, ps', fl, rm, st) /\ length ps' = length ps /\
      (~ In p ms -> ps' = ps) /\
      (res = Ok tt -> In p ms -> exists ps1, f_norm (fn ow) ps1 = Ok ps' /\ length ps1 = length ps /\
         forall i, nth_error fl i = Some false -> nth_error ps1 i = nth_error ps i).
Proof.
  intros h ms n wc t1 t2 h' res R [ND HL] HX Hn HF p ow ps fl rm st L.
  pose proof (reachable_ok fn h NK R) as I.
  pose proof (fit_outcome V X W isnan fn h ms n wc t1 t2 NK I ND HL
    (fun x ier pc H => HX x ier pc (or_introl H)) (fun x ier pc H => HX x ier pc (or_intror H)) Hn) as FO.
  rewrite HF in FO. destruct FO as [[F M] O].
  destruct (M _ _ _ _ _ _ L) as (ps' & L' & E). exists ps'. split; [exact L'|]. split; [exact E|]. split.
  - intros Hp. specialize (F p Hp). rewrite L, L' in F. congruence.
  - intros -> Hp. destruct O as (t & x & ier & pc & _ & _ & _ & _ & _ & ps1 & _ & D & _).
    destruct (D p ow ps fl rm st Hp L) as (A & B & a & N & La). exists (ps1 p).
    rewrite L' in La. injection La as <-. auto.
Qed.

(** ** C14 *)
Theorem C14_npars_counts :
  forall h ms, reachable fn h -> model h ms ->
    m_npars V X W fn h true ms =
      list_sum (map (fun p => match look V h p with Some (_, ps, _, _, _) => length ps | None => 0 end) ms) /\
    m_npars V X W fn h false ms = free_count h ms /\
    (forall v, unpack V h ms = Ok v -> length v = m_npars V X W fn h false ms) /\
    m_npars V X W fn h false ms <= m_npars V X W fn h true ms.
Proof.
  intros h ms R [ND HL]. pose proof (reachable_ok fn h NK R) as I.
  assert (A : m_npars V X W fn h true ms =
      list_sum (map (fun p => match look V h p with Some (_, ps, _, _, _) => length ps | None => 0 end) ms)).
  { rewrite m_npars_sum. f_equal. apply map_ext_in. intros p Hp. destruct (HL p Hp) as [[[[[ow ps] fl] rm] st] L].
    rewrite L. eapply npars_look; eauto. }
  assert (B : m_npars V X W fn h false ms = free_count h ms).
  { rewrite m_npars_sum. unfold free_count. f_equal. apply map_ext_in. intros p Hp.
    destruct (HL p Hp) as [[[[[ow ps] fl] rm] st] L]. rewrite L. eapply npars_look; eauto. }
  split; [exact A|]. split; [exact B|]. split.
  - intros v Hv. rewrite B. destruct ms; [discriminate|]. injection Hv as <-.
    apply (unpack_concat_len V X W fn h (l :: ms) I HL).
  - rewrite A, B. unfold free_count. clear A B R ND. induction ms as [|p ms IH]; [apply le_n|].
    cbn. assert (IH' := IH (fun q Hq => HL q (or_intror Hq))).
    destruct (HL p (or_introl eq_refl)) as [[[[[ow ps] fl] rm] st] L]. rewrite L.
    destruct (look_len V X W fn _ _ _ _ _ _ _ I L) as [Q1 Q2]. pose proof (nfree_le fl) as Q3. unfold nfree in Q3.
    unfold list_sum in *. lia.
Qed.

(** ** C15 *)
Theorem C15_copy_equal_and_independent :
  forall h ms, reachable fn h -> model h ms ->
    exists h' qs, copy_parts V X W fn h ms = (h', Ok qs) /\ model h' qs /\
      length qs = length ms /\ (forall q, In q qs -> look V h q = None) /\
      (* same contents, including the shared owner *)
      (forall i p q, nth_error ms i = Some p -> nth_error qs i = Some q ->
         look V h' q = look V h p /\ look V h' p = look V h p) /\
      (* any later program that does not write to the copies leaves them alone,
         and any later program that does not write to the originals leaves those alone *)
      (forall ops, (forall o q, In o ops -> In q qs -> writes V o <> Some q) ->
         forall q, In q qs -> look V (exec_all V X W fn h' ops) q = look V h' q) /\
      (forall ops, (forall o p, In o ops -> In p ms -> writes V o <> Some p) ->
         forall p, In p ms -> look V (exec_all V X W fn h' ops) p = look V h p).
Proof.
  intros h ms R [ND HL]. pose proof (reachable_ok fn h NK R) as I.
  destruct (copy_parts_ok V X W fn ms h I HL) as (h' & qs & E & I' & Len & NDq & Nn & P & C).
  assert (LQ : forall q, In q qs -> exists c, look V h' q = Some c).
  { intros q Hq. destruct (In_nth_error _ _ Hq) as [i Hi].
    destruct (nth_error ms i) as [p|] eqn:Hp.
    - rewrite (C i p q Hp Hi). apply HL. eapply nth_error_In; eauto.
    - apply nth_error_None in Hp. assert (i < length qs) by (apply nth_error_Some; congruence). lia. }
  exists h', qs. split; [exact E|]. split; [split; assumption|]. split; [exact Len|]. split; [exact Nn|].
  split; [|split].
  - intros i p q Hp Hq. split; [eapply C; eauto|]. apply P. apply HL. eapply nth_error_In; eauto.
  - intros ops Ho q Hq. apply (exec_all_ok V X W fn ops h' NK I'); [exact (LQ q Hq)|].
    intros o Hin. apply Ho; auto.
  - intros ops Ho p Hp. rewrite <- (P p (HL p Hp)). apply (exec_all_ok V X W fn ops h' NK I').
    + unfold live. rewrite (P p (HL p Hp)). exact (HL p Hp).
    + intros o Hin. apply Ho; auto.
Qed.

(** The copy also compares equal with ==, provided no parameter is NaN. *)
Theorem C15_copy_compares_equal :
  forall veq h p q h', reachable fn h ->
    (forall a, isnan a = false -> veq a a = true) ->
    copy_part V X W fn h p = (h', Ok q) ->
    (forall ow ps fl rm st a, look V h p = Some (ow, ps, fl, rm, st) -> In a ps -> isnan a = false) ->
    part_eq V veq h' p q = true.
Proof.
  intros veq h p q h' R Hv HC Hn. pose proof (reachable_ok fn h NK R) as I.
  destruct (look V h p) as [[[[[ow ps] fl] rm] st]|] eqn:L.
  2:{ unfold copy_part in HC. unfold look in L. destruct (objs V h p); discriminate. }
  destruct (copy_part_ok V X W fn h p ow ps fl rm st I L) as (h1 & q1 & E & _ & N & Lq & F).
  rewrite E in HC. injection HC as <- <-.
  assert (Lp : look V h1 p = Some (ow, ps, fl, rm, st)) by (rewrite F; [exact L|intros ->; congruence]).
  destruct (look_obj V _ _ _ _ _ _ _ Lp) as (o & Ho & A1 & A2 & A3 & A4 & A5).
  destruct (look_obj V _ _ _ _ _ _ _ Lq) as (o2 & Ho2 & B1 & B2 & B3 & B4 & B5).
  unfold part_eq. rewrite Ho, Ho2, A1, B1, A2, B2, A3, B3, A4, B4, Nat.eqb_refl.
  rewrite all_eq_refl; [|intros a Ha; apply Hv; eapply Hn; eauto].
  rewrite all_eq_refl; [|intros []; reflexivity]. destruct rm; reflexivity.
Qed.

(** ** C16 *)
Theorem C16_changeowner_exact :
  forall h p ow ps fl rm st ow', reachable fn h -> look V h p = Some (ow, ps, fl, rm, st) ->
    let ok := (st = false \/ ow = ow') /\ f_npars (fn ow) = f_npars (fn ow') in
    (ok -> exists h', changeowner V X W fn h p ow' = (h', Ok tt) /\
       look V h' p = Some (ow', ps, fl, rm, st) /\ forall q, q <> p -> look V h' q = look V h q) /\
    (~ ok -> changeowner V X W fn h p ow' = (h, Err GenericException)).
Proof.
  intros h p ow ps fl rm st ow' R L ok. pose proof (reachable_ok fn h NK R) as I.
  destruct (changeowner_cases V X W fn h p ow ps fl rm st ow' I L)
    as [[E H]|(h' & E & _ & H1 & H2 & L' & F)]; rewrite E.
  - split; [|auto]. intros [[K|K] K2]; destruct H as [[H1 H2]|H]; congruence.
  - split; [eauto|]. intros N. exfalso. apply N. split; [|exact H2]. destruct st; auto.
Qed.

(** Only the owner may evaluate a part; the part itself always delegates to it. *)
Theorem C16_only_owner_evaluates :
  forall wzero h p ow ps fl rm st self r rng, look V h p = Some (ow, ps, fl, rm, st) ->
    (self <> ow -> fvalue V X W wzero fn h self p r rng = Err ValueError) /\
    (exists v, fvalue V X W wzero fn h ow p r rng = Ok v) /\
    pvalue V X W wzero fn h p r rng = fvalue V X W wzero fn h ow p r rng.
Proof.
  intros wzero h p ow ps fl rm st self r rng L.
  destruct (look_obj V _ _ _ _ _ _ _ L) as (o & Ho & <- & _).
  split; [intros N; eapply fvalue_owner; eauto|].
  unfold pvalue, fvalue. rewrite Ho, Nat.eqb_refl. cbn. eauto.
Qed.

(** ** C17 *)
(** With pointwise functions: the model value at grid point i is the sum over the
    parts, left to right from zero, of the part's own value at that point, or zero
    if the point is outside the range (Python slice semantics, any bounds). *)
Theorem C17_value_is_sum_of_parts :
  forall wzero wadd g h ms r rng, reachable fn h -> model h ms ->
    (forall ow ps r, f_value (fn ow) ps r = map (g ow ps) r) -> wadd wzero wzero = wzero ->
    exists t, mvalue V X W wzero wadd fn h ms r rng = Ok t /\ length t = length r /\
    forall i x, nth_error r i = Some x ->
      let part_value p := match look V h p with Some (ow, ps, _, _, _) => g ow ps x | None => wzero end in
      (in_rng (length r) rng i ->
         nth_error t i = Some (fold_left (fun s p => wadd s (part_value p)) ms wzero)) /\
      (~ in_rng (length r) rng i -> nth_error t i = Some wzero).
Proof.
  intros wzero wadd g h ms r rng R [ND HL] PW Z.
  assert (PV : forall p, In p ms -> exists ow ps fl rm st v, look V h p = Some (ow, ps, fl, rm, st) /\
     pvalue V X W wzero fn h p r rng = Ok v /\ length v = length r /\
     forall i x, nth_error r i = Some x ->
      (in_rng (length r) rng i -> nth_error v i = Some (g ow ps x)) /\
      (~ in_rng (length r) rng i -> nth_error v i = Some wzero)).
  { intros p Hp. destruct (HL p Hp) as [[[[[ow ps] fl] rm] st] L]. exists ow, ps, fl, rm, st.
    destruct (pvalue_pointwise V X W fn wzero h p ow ps fl rm st r rng (g ow) L (PW ow)) as (v & A & B & C).
    exists v. auto. }
  destruct (value_loop_ok V X W fn wzero wadd h ms r rng (repeat wzero (length r))) as (t & E & Lt & Ht).
  { intros p Hp. destruct (PV p Hp) as (? & ? & ? & ? & ? & v & _ & A & B & _). eauto. }
  { apply repeat_length. }
  exists t. split; [exact E|]. split; [exact Lt|]. intros i x Hx part_value.
  assert (Hi : i < length r) by (apply nth_error_Some; congruence).
  destruct (Ht i wzero) as (vs & F2 & N); [apply nth_error_repeat; exact Hi|].
  split; intros Hr; rewrite N; f_equal.
  - assert (Q : (forall p, In p ms -> exists ow ps fl rm st, look V h p = Some (ow, ps, fl, rm, st) /\
        forall v, pvalue V X W wzero fn h p r rng = Ok v -> nth_error v i = Some (g ow ps x)) ->
        forall acc, fold_left wadd vs acc = fold_left (fun s p => wadd s (part_value p)) ms acc).
    { clear - F2. induction F2 as [|p w ms vs Hpw F2 IH]; intros Q acc; [reflexivity|]. cbn.
      rewrite IH by (intros q Hq; apply Q; now right). f_equal. f_equal.
      destruct (Q p (or_introl eq_refl)) as (ow & ps & fl & rm & st & L & K).
      destruct Hpw as (v & Ev & Nv). specialize (K v Ev). unfold part_value. rewrite L. congruence. }
    apply Q. intros p Hp.
    destruct (PV p Hp) as (ow & ps & fl & rm & st & v & L & A & B & C).
    exists ow, ps, fl, rm, st. split; [exact L|]. intros v' Hv'. rewrite A in Hv'. injection Hv' as <-.
    apply C; assumption.
  - assert (Q : (forall p, In p ms -> forall v, pvalue V X W wzero fn h p r rng = Ok v -> nth_error v i = Some wzero) ->
        fold_left wadd vs wzero = wzero).
    { clear - F2 Z. induction F2 as [|p w ms vs Hpw F2 IH]; intros Q; [reflexivity|]. cbn.
      destruct Hpw as (v & Ev & Nv). rewrite (Q p (or_introl eq_refl) v Ev) in Nv. injection Nv as <-.
      rewrite Z. apply IH. intros q Hq. apply Q. now right. }
    apply Q. intros p Hp v' Hv'.
    destruct (PV p Hp) as (ow & ps & fl & rm & st & v & L & A & B & C).
    rewrite A in Hv'. injection Hv' as <-. apply (C i x Hx). exact Hr.
Qed.

(** ** C18 *)
Theorem C18_too_many_parameters :
  forall h ms n wc t1 t2, reachable fn h -> model h ms -> ms <> [] -> n <= free_count h ms ->
    fit V X W isnan fn h ms n wc t1 t2 = (h, Err FitError).
Proof.
  intros h ms n wc t1 t2 R [ND HL] Hne Hn. pose proof (reachable_ok fn h NK R) as I. unfold fit.
  replace (unpack V h ms) with (Ok (concat (map (compress V h) ms))) by (destruct ms; [contradiction|reflexivity]).
  rewrite (unpack_concat_len V X W fn h ms I HL).
  change (total_free V h ms) with (free_count h ms). destruct (Nat.leb_spec n (free_count h ms)); [reflexivity|lia].
Qed.

Theorem C18_no_free_parameters :
  forall h ms n wc t1 t2, reachable fn h -> model h ms -> ms <> [] -> free_count h ms = 0 -> 0 < n ->
    fit V X W isnan fn h ms n wc t1 t2 = (h, Ok tt).
Proof.
  intros h ms n wc t1 t2 R [ND HL] Hne H0 Hn. pose proof (reachable_ok fn h NK R) as I. unfold fit.
  replace (unpack V h ms) with (Ok (concat (map (compress V h) ms))) by (destruct ms; [contradiction|reflexivity]).
  rewrite (unpack_concat_len V X W fn h ms I HL).
  change (total_free V h ms) with (free_count h ms). rewrite H0. destruct n; [lia|reflexivity].
Qed.

(** An empty model raises numpy's ValueError (np.concatenate of nothing). *)
Theorem C18_empty_model_raises :
  forall h n wc t1 t2, fit V X W isnan fn h [] n wc t1 t2 = (h, Err ValueError).
Proof. reflexivity. Qed.

(** For every optimiser behaviour (any sequence of evaluations, any exception, any
    answer of the right length): fit returns only if an accepted, NaN-free answer was
    stored and normalised; an exception other than the fit error comes only from the
    fallback run, from a NaN answer, from the normal-form conversion, or from a
    missing curvature matrix when a covariance was requested. *)
Theorem C18_fit_outcome :
  forall h ms n wc t1 t2, reachable fn h -> model h ms ->
  (forall x ier pc, snd t1 = LDone V x ier pc \/ snd t2 = LDone V x ier pc -> length x = free_count h ms) ->
  0 < free_count h ms < n ->
  let (h', res) := fit V X W isnan fn h ms n wc t1 t2 in
  match res with
  | Ok _ => exists t x ier pc,
      (t = t1 \/ (t = t2 /\ snd t1 = LRaise V NotImplementedErr)) /\ snd t = LDone V x ier pc /\
      (1 <= ier <= 4)%Z /\ (forall a, In a x -> isnan a = false) /\ (wc = true -> pc = true) /\
      stored V X W fn h h' ms x
  | Err FitError => True
  | Err e =>
      (snd t1 = LRaise V NotImplementedErr /\ (snd t2 = LRaise V e \/ e = ValueError)) \/
      exists t x ier pc,
      (t = t1 \/ (t = t2 /\ snd t1 = LRaise V NotImplementedErr)) /\ snd t = LDone V x ier pc /\
      ((e = ValueError /\ exists a, In a x /\ isnan a = true) \/
       (exists p ow ps1, In p ms /\ owner_is V h p ow /\ f_norm (fn ow) ps1 = Err e) \/
       (e = TypeError /\ wc = true /\ pc = false))
  end.
Proof.
  intros h ms n wc t1 t2 R [ND HL] HX Hn. pose proof (reachable_ok fn h NK R) as I.
  pose proof (fit_outcome V X W isnan fn h ms n wc t1 t2 NK I ND HL
    (fun x ier pc H => HX x ier pc (or_introl H)) (fun x ier pc H => HX x ier pc (or_intror H)) Hn) as FO.
  destruct (fit V X W isnan fn h ms n wc t1 t2) as [h' res]. destruct FO as [_ O].
  destruct res as [[]|e].
  - destruct O as (t & x & ier & pc & A & B & C & D & E & F). exists t, x, ier, pc. repeat (split; [assumption|]).
    split; [|auto]. intros a Ha. destruct (isnan a) eqn:K; [|reflexivity].
    assert (existsb isnan x = true) by (apply existsb_exists; eauto). congruence.
  - destruct e; auto;
    (destruct O as [O|(t & x & ier & pc & A & B & O)]; [left; exact O|right; exists t, x, ier, pc];
     split; [exact A|]; split; [exact B|];
     destruct O as [[O1 O2]|O]; [left; split; [exact O1|apply existsb_exists; exact O2]|right; exact O]).
Qed.

(** ** C21 (part constructor) *)
Theorem C21_part_constructor_exact :
  forall h ow ps fr rm st, reachable fn h ->
    let ok := length ps = f_npars (fn ow) /\ (forall l, fr = Some l -> length l = f_npars (fn ow)) in
    (ok -> exists h' q, construct V X W fn h ow ps fr rm st = (h', Ok q) /\ look V h q = None /\
       look V h' q = Some (ow, ps, match fr with None => repeat true (length ps) | Some l => l end, rm, st) /\
       forall p, p <> q -> look V h' p = look V h p) /\
    (~ ok -> construct V X W fn h ow ps fr rm st = (h, Err ValueError)).
Proof.
  intros h ow ps fr rm st R ok. pose proof (reachable_ok fn h NK R) as I.
  pose proof (construct_cases V X W fn h ow ps fr rm st I) as C.
  destruct (construct V X W fn h ow ps fr rm st) as [h' [q|e]].
  - destruct C as (A & B & _ & D & E & F). split; [eauto 10|]. intros N. exfalso. apply N. split; [exact A|].
    intros l ->. exact B.
  - destruct C as (-> & -> & C). split; [|auto]. intros [O1 O2]. destruct C as [C|(l & C1 & C2)]; [contradiction|].
    elim C2. apply O2. exact C1.
Qed.
End Props.

Print Assumptions C12_unpack_after_pack.
Print Assumptions C12_pack_after_unpack.
Print Assumptions C12_nan_rejected.
Print Assumptions C12_long_vector_prefix_used.
Print Assumptions C12_short_vector.
Print Assumptions C13_pack_keeps_fixed.
Print Assumptions C13_fit_keeps_fixed_up_to_normal_form.
Print Assumptions C14_npars_counts.
Print Assumptions C15_copy_equal_and_independent.
Print Assumptions C15_copy_compares_equal.
Print Assumptions C16_changeowner_exact.
Print Assumptions C16_only_owner_evaluates.
Print Assumptions C17_value_is_sum_of_parts.
Print Assumptions C18_too_many_parameters.
Print Assumptions C18_no_free_parameters.
Print Assumptions C18_empty_model_raises.
Print Assumptions C18_fit_outcome.
Print Assumptions C21_part_constructor_exact.

(** ** Non-vacuity *)
Notation packZ := (pack (option Z) Z Z ex_nan ex_fn).
Notation lookZ := (look (option Z)).
Notation fitZ := (fit (option Z) Z Z ex_nan ex_fn).

Example C12_nonvacuous :
  reachable ex_fn ex_h /\ model ex_h ex_ms /\ free_count ex_h ex_ms = 3 /\
  unpack _ ex_h ex_ms = Ok [Some 1; Some 2; Some 7]%Z /\
  unpack _ (fst (packZ ex_h ex_ms [Some 4; Some 5; Some 6]%Z)) ex_ms = Ok [Some 4; Some 5; Some 6]%Z /\
  packZ ex_h ex_ms [Some 4; None; Some 6]%Z = (ex_h, Err ValueError) /\
  snd (packZ ex_h ex_ms [Some 4]%Z) = Err ValueError.
Proof. split; [apply ex_reachable|]. split; [apply ex_model|]. vm_compute. auto 10. Qed.

(** The documented length requirement is not enforced: one value given to a model
    that needs two free values is silently broadcast. *)
Theorem C73_short_vector_broadcast_refuted :
  exists h ms, reachable ex_fn h /\ model h ms /\ free_count h ms = 2 /\
    snd (packZ h ms [Some 9]%Z) = Ok tt /\
    lookZ (fst (packZ h ms [Some 9]%Z)) 2 = Some (0, [Some 9; Some 9; Some (-3)]%Z, [true; true; false], true, false).
Proof.
  exists ex_h, [2]. split; [apply ex_reachable|]. split.
  - split; [repeat constructor; intuition|]. intros p [<-|[]]. vm_compute. eauto.
  - vm_compute. auto.
Qed.
Print Assumptions C73_short_vector_broadcast_refuted.

Definition ex_t1 : lsq (option Z) := ([[Some 0; Some 0; Some 0]%Z], LRaise _ NotImplementedErr).
Definition ex_t2 : lsq (option Z) := ([[Some 1; Some 0; Some 0]%Z], LDone _ [Some 5; Some 6; Some 8]%Z 2 true).

(** Fixed parameters do change in a fit when they are not in normal form: the
    third parameter of part 2 is fixed at -3 and becomes 3. *)
Theorem C74_fit_rewrites_fixed_refuted :
  exists h ms t1 t2, reachable ex_fn h /\ model h ms /\ snd (fitZ h ms 10 true t1 t2) = Ok tt /\
    lookZ h 2 = Some (0, [Some 1; Some 2; Some (-3)]%Z, [true; true; false], true, false) /\
    lookZ (fst (fitZ h ms 10 true t1 t2)) 2 =
      Some (0, [Some 5; Some 6; Some 3]%Z, [true; true; false], true, false).
Proof.
  exists ex_h, ex_ms, ex_t1, ex_t2. split; [apply ex_reachable|]. split; [apply ex_model|]. vm_compute. auto.
Qed.
Print Assumptions C74_fit_rewrites_fixed_refuted.

(** Not every failure is a fit error: an exception of the fallback run, or a missing
    curvature matrix when the covariance is wanted, escapes as it is. *)
Theorem C75_other_exceptions_refuted :
  reachable ex_fn ex_h /\ model ex_h ex_ms /\
  snd (fitZ ex_h ex_ms 10 false ex_t1 ([], LRaise _ AttributeError)) = Err AttributeError /\
  snd (fitZ ex_h ex_ms 10 true ([], LDone _ [Some 5; Some 6; Some 8]%Z 1 false) ex_t2) = Err TypeError /\
  snd (fitZ ex_h ex_ms 10 true ([], LRaise _ AttributeError) ex_t2) = Err FitError.
Proof. split; [apply ex_reachable|]. split; [apply ex_model|]. vm_compute. auto. Qed.
Print Assumptions C75_other_exceptions_refuted.

Example C14_nonvacuous :
  m_npars _ _ _ ex_fn ex_h true ex_ms = 4 /\ m_npars _ _ _ ex_fn ex_h false ex_ms = 3.
Proof. vm_compute. auto. Qed.

Example C15_nonvacuous :
  let h1 := fst (copy_parts _ _ _ ex_fn ex_h ex_ms) in
  snd (copy_parts _ _ _ ex_fn ex_h ex_ms) = Ok [8; 11] /\
  let h2 := exec_all _ _ _ ex_fn h1 [OUpdate _ 2 [Some 40; Some 50]%Z; OSetFree _ 2 0%Z false] in
  lookZ h2 8 = Some (0, [Some 1; Some 2; Some (-3)]%Z, [true; true; false], true, false) /\
  lookZ h2 2 = Some (0, [Some 40; Some 50; Some (-3)]%Z, [false; true; false], true, false).
Proof. vm_compute. auto. Qed.

Example C16_nonvacuous :
  snd (changeowner _ _ _ ex_fn ex_h 5 2) = Err GenericException /\  (* static *)
  snd (changeowner _ _ _ ex_fn ex_h 2 1) = Err GenericException /\  (* 3 vs 1 parameters *)
  snd (changeowner _ _ _ ex_fn ex_h 2 0) = Ok tt.
Proof. vm_compute. auto. Qed.

Example C17_nonvacuous :
  mvalue _ _ _ 0%Z Z.add ex_fn ex_h ex_ms [1; 2; 3; 4]%Z (Some (Some 1, Some (-1)))%Z = Ok [0; 16; 25; 0]%Z /\
  mvalue _ _ _ 0%Z Z.add ex_fn ex_h ex_ms [1; 2; 3; 4]%Z None = Ok [7; 16; 25; 34]%Z.
Proof. vm_compute. auto. Qed.

Example C21_nonvacuous :
  snd (construct _ _ _ ex_fn ex_h 0 [Some 1; Some 2]%Z None true false) = Err ValueError /\
  snd (construct _ _ _ ex_fn ex_h 0 [Some 1; Some 2; Some 3]%Z (Some [true]) true false) = Err ValueError /\
  snd (construct _ _ _ ex_fn ex_h 0 [Some 1; Some 2; Some 3]%Z None true false) = Ok 8.
Proof. vm_compute. auto. Qed.

(** Invariants and lemmas about the heap of model parts. *)
From Verif Require Import Prelude Parts.

Set Default Proof Using "Type".
Section P.
Variables V X W : Type.
Variable fn : nat -> func V X W.

Notation heap := (heap V).
Notation look := (look V).

(** transform_parameters keeps the number of parameters. *)
Definition norm_keeps_length := forall ow l l', f_norm (fn ow) l = Ok l' -> length l' = length l.

(** Every part object has its own two arrays, of the length its owner asks for. *)
Record heap_ok (h : heap) : Prop := {
  ok_lt : forall p o, objs V h p = Some o -> p < fresh V h /\ pars o < fresh V h /\ free o < fresh V h;
  ok_len : forall p o, objs V h p = Some o ->
     length (vals V h (pars o)) = f_npars (fn (owner o)) /\
     length (flags V h (free o)) = f_npars (fn (owner o));
  ok_sep : forall p q a b, objs V h p = Some a -> objs V h q = Some b -> p <> q ->
     pars a <> pars b /\ free a <> free b }.

Definition live (h : heap) (p : loc) := exists c, look h p = Some c.

Lemma live_obj h p : live h p <-> exists o, objs V h p = Some o.
Proof.
  unfold live, Parts.look. destruct (objs V h p); split; intros [c H]; try discriminate; eauto.
Qed.

Lemma set_same {A} (f : loc -> A) l a : set f l a l = a.
Proof. unfold set. now rewrite Nat.eqb_refl. Qed.
Lemma set_other {A} (f : loc -> A) l a x : x <> l -> set f l a x = f x.
Proof. unfold set. destruct (Nat.eqb_spec x l); congruence. Qed.

Ltac cases_set :=
  repeat match goal with
  | H : context [set ?f ?l ?a ?x] |- _ =>
      destruct (Nat.eq_dec x l) as [?E|?E]; [rewrite ?E, set_same in *|rewrite (set_other f l a x E) in *]
  | |- context [set ?f ?l ?a ?x] =>
      destruct (Nat.eq_dec x l) as [?E|?E]; [rewrite ?E, set_same in *|rewrite (set_other f l a x E) in *]
  end.

Lemma empty_ok : heap_ok (empty_heap V).
Proof. split; cbn; intros; discriminate. Qed.

(** ** construct *)
Lemma construct_cases h ow ps fr rm st :
  heap_ok h ->
  match construct V X W fn h ow ps fr rm st with
  | (h', Err e) => h' = h /\ e = ValueError /\
       (length ps <> f_npars (fn ow) \/ exists l, fr = Some l /\ length l <> f_npars (fn ow))
  | (h', Ok q) => length ps = f_npars (fn ow) /\
       let l := match fr with None => repeat true (length ps) | Some l => l end in
       length l = f_npars (fn ow) /\
       heap_ok h' /\ look h q = None /\ look h' q = Some (ow, ps, l, rm, st) /\
       forall p, p <> q -> look h' p = look h p
  end.
Proof.
  intros I. unfold construct. destruct (Nat.eqb_spec (length ps) (f_npars (fn ow))) as [E|E]; cbn [negb].
  2:{ auto. }
  set (l := match fr with None => repeat true (length ps) | Some l => l end).
  destruct (Nat.eqb_spec (length l) (f_npars (fn ow))) as [E2|E2]; cbn [negb].
  2:{ split; [reflexivity|]. split; [reflexivity|]. right. unfold l in E2. destruct fr.
      - eauto.
      - rewrite repeat_length in E2. contradiction. }
  split; [exact E|]. split; [exact E2|].
  assert (N : objs V h (S (S (fresh V h))) = None).
  { destruct (objs V h (S (S (fresh V h)))) eqn:E3; [|reflexivity]. apply (ok_lt h I) in E3. lia. }
  split; [|split; [|split]].
  - split; cbn [objs vals flags fresh].
    + intros p o. unfold set. destruct (Nat.eqb_spec p (S (S (fresh V h)))) as [->|].
      * intros [= <-]. cbn. lia.
      * intros H. apply (ok_lt h I) in H. lia.
    + intros p o. unfold set at 1. destruct (Nat.eqb_spec p (S (S (fresh V h)))) as [->|].
      * intros [= <-]. cbn. rewrite !set_same. auto.
      * intros H. pose proof (ok_lt h I _ _ H). rewrite !set_other by lia. apply (ok_len h I _ _ H).
    + intros p q a b. unfold set.
      destruct (Nat.eqb_spec p (S (S (fresh V h)))) as [->|];
      destruct (Nat.eqb_spec q (S (S (fresh V h)))) as [->|].
      * congruence.
      * intros [= <-] H _. pose proof (ok_lt h I _ _ H). cbn. lia.
      * intros H [= <-] _. pose proof (ok_lt h I _ _ H). cbn. lia.
      * apply (ok_sep h I).
  - unfold Parts.look. now rewrite N.
  - unfold Parts.look. cbn [objs vals flags]. rewrite set_same. cbn. now rewrite !set_same.
  - intros p Hp. unfold Parts.look. cbn [objs vals flags]. rewrite set_other by assumption.
    destruct (objs V h p) as [o|] eqn:Ho; [|reflexivity].
    pose proof (ok_lt h I _ _ Ho). now rewrite !set_other by lia.
Qed.

Lemma copy_part_ok h p ow ps fl rm st :
  heap_ok h -> look h p = Some (ow, ps, fl, rm, st) ->
  exists h' q, copy_part V X W fn h p = (h', Ok q) /\ heap_ok h' /\ look h q = None /\
    look h' q = Some (ow, ps, fl, rm, st) /\ forall p', p' <> q -> look h' p' = look h p'.
Proof.
  intros I L. unfold Parts.look in L. unfold copy_part. destruct (objs V h p) as [o|] eqn:Ho; [|discriminate].
  injection L as <- <- <- <- <-.
  pose proof (construct_cases h (owner o) (vals V h (pars o)) (Some (flags V h (free o)))
    (removable o) (static_owner o) I) as C.
  destruct (construct _ _ _ _ _ _ _ _ _ _) as [h' [q|e]].
  - destruct C as (_ & _ & C). exists h', q. auto.
  - destruct C as (_ & _ & [C|(l & [= <-] & C)]); destruct (ok_len h I _ _ Ho); contradiction.
Qed.

(** ** updates *)
Lemma mask_put_length {A} (a : list A) m vs : length (mask_put a m vs) = length a.
Proof.
  revert m vs; induction a as [|x a IH]; intros [|[] m] [|v vs]; cbn; auto.
Qed.

Lemma mask_assign_length {A} (a : list A) m vs a' : mask_assign a m vs = Ok a' -> length a' = length a.
Proof.
  unfold mask_assign. destruct (_ =? _); [intros [= <-]; apply mask_put_length|].
  destruct vs as [|v [|? ?]]; try discriminate. intros [= <-]. apply mask_put_length.
Qed.

(** Writing the parameter array of one part. *)
Lemma set_vals_ok h p o a :
  heap_ok h -> objs V h p = Some o -> length a = length (vals V h (pars o)) ->
  heap_ok (set_vals V h (pars o) a) /\
  look (set_vals V h (pars o) a) p = Some (owner o, a, flags V h (free o), removable o, static_owner o) /\
  forall q, q <> p -> look (set_vals V h (pars o) a) q = look h q.
Proof.
  intros I Ho Hl. split; [|split].
  - split; cbn; [apply (ok_lt h I)| |apply (ok_sep h I)].
    intros q b Hq. destruct (Nat.eq_dec (pars b) (pars o)) as [E|E].
    + rewrite E, set_same, Hl. destruct (Nat.eq_dec q p) as [->|N].
      * rewrite Hq in Ho. injection Ho as ->. apply (ok_len h I _ _ Hq).
      * destruct (ok_sep h I _ _ _ _ Hq Ho N). contradiction.
    + rewrite set_other by assumption. apply (ok_len h I _ _ Hq).
  - unfold Parts.look. cbn. rewrite Ho, set_same. reflexivity.
  - intros q N. unfold Parts.look. cbn. destruct (objs V h q) as [b|] eqn:Hq; [|reflexivity].
    destruct (ok_sep h I _ _ _ _ Hq Ho N). now rewrite set_other.
Qed.

Lemma set_flags_ok h p o a :
  heap_ok h -> objs V h p = Some o -> length a = length (flags V h (free o)) ->
  heap_ok (set_flags V h (free o) a) /\
  look (set_flags V h (free o) a) p = Some (owner o, vals V h (pars o), a, removable o, static_owner o) /\
  forall q, q <> p -> look (set_flags V h (free o) a) q = look h q.
Proof.
  intros I Ho Hl. split; [|split].
  - split; cbn; [apply (ok_lt h I)| |apply (ok_sep h I)].
    intros q b Hq. destruct (Nat.eq_dec (free b) (free o)) as [E|E].
    + rewrite E, set_same, Hl. destruct (Nat.eq_dec q p) as [->|N].
      * rewrite Hq in Ho. injection Ho as ->. apply (ok_len h I _ _ Hq).
      * destruct (ok_sep h I _ _ _ _ Hq Ho N). contradiction.
    + rewrite set_other by assumption. apply (ok_len h I _ _ Hq).
  - unfold Parts.look. cbn. rewrite Ho, set_same. reflexivity.
  - intros q N. unfold Parts.look. cbn. destruct (objs V h q) as [b|] eqn:Hq; [|reflexivity].
    destruct (ok_sep h I _ _ _ _ Hq Ho N). now rewrite set_other.
Qed.

Lemma look_obj h p ow ps fl rm st :
  look h p = Some (ow, ps, fl, rm, st) ->
  exists o, objs V h p = Some o /\ owner o = ow /\ vals V h (pars o) = ps /\
    flags V h (free o) = fl /\ removable o = rm /\ static_owner o = st.
Proof.
  unfold Parts.look. destruct (objs V h p) as [o|]; [|discriminate].
  intros [= <- <- <- <- <-]. exists o. auto 6.
Qed.

Lemma look_len h p ow ps fl rm st :
  heap_ok h -> look h p = Some (ow, ps, fl, rm, st) ->
  length ps = f_npars (fn ow) /\ length fl = f_npars (fn ow).
Proof.
  intros I L. destruct (look_obj _ _ _ _ _ _ _ L) as (o & Ho & <- & <- & <- & _). apply (ok_len h I _ _ Ho).
Qed.

Lemma update_cases h p ow ps fl rm st v :
  heap_ok h -> look h p = Some (ow, ps, fl, rm, st) ->
  match mask_assign ps fl (firstn (nfree fl) v) with
  | Err e => update V X W fn h p v = (h, Err e)
  | Ok a => exists h', update V X W fn h p v = (h', Ok (nfree fl)) /\ heap_ok h' /\
      look h' p = Some (ow, a, fl, rm, st) /\ forall q, q <> p -> look h' q = look h q
  end.
Proof.
  intros I L. destruct (look_obj _ _ _ _ _ _ _ L) as (o & Ho & <- & <- & <- & <- & <-).
  unfold update, npars. rewrite Ho.
  destruct (mask_assign _ _ _) as [a|e] eqn:E; [|reflexivity].
  exists (set_vals V h (pars o) a). split; [reflexivity|].
  apply set_vals_ok; auto. eapply mask_assign_length; eauto.
Qed.

(** ** masks *)
Arguments nfree : simpl never.
Lemma nfree_cons b l : nfree (b :: l) = (if b then 1 else 0) + nfree l.
Proof. unfold nfree. destruct b; reflexivity. Qed.

Lemma mask_get_length {A} (a : list A) m : length a = length m -> length (mask_get a m) = nfree m.
Proof.
  revert m; induction a as [|x a IH]; intros [|b m] H; cbn in *; try discriminate; [reflexivity|].
  rewrite nfree_cons. destruct b; cbn; rewrite IH; lia.
Qed.

Lemma mask_get_put {A} (a : list A) m vs :
  length a = length m -> length vs = nfree m -> mask_get (mask_put a m vs) m = vs.
Proof.
  revert m vs; induction a as [|x a IH]; intros [|b m] vs H Hv; cbn in *; try discriminate.
  - destruct vs; [reflexivity|discriminate].
  - rewrite nfree_cons in Hv. destruct b.
    + destruct vs as [|v vs]; [discriminate|]. cbn in *. f_equal. apply IH; lia.
    + apply IH; lia.
Qed.

Lemma mask_put_get {A} (a : list A) m : length a = length m -> mask_put a m (mask_get a m) = a.
Proof.
  revert m; induction a as [|x a IH]; intros [|b m] H; cbn in *; try discriminate; [reflexivity|].
  destruct b; cbn; f_equal; apply IH; lia.
Qed.

Lemma mask_put_fixed {A} (a : list A) m vs i :
  nth_error m i = Some false -> nth_error (mask_put a m vs) i = nth_error a i.
Proof.
  revert m vs i; induction a as [|x a IH]; intros m vs i H; destruct m as [|b m]; try (destruct b);
    try reflexivity.
  - destruct i as [|i]; [discriminate|]. destruct vs; cbn; apply IH; exact H.
  - destruct i as [|i]; [reflexivity|]. cbn. apply IH; exact H.
Qed.

Lemma mask_assign_fixed {A} (a : list A) m vs a' i :
  mask_assign a m vs = Ok a' -> nth_error m i = Some false -> nth_error a' i = nth_error a i.
Proof.
  unfold mask_assign. destruct (_ =? _); [intros [= <-]; apply mask_put_fixed|].
  destruct vs as [|v [|? ?]]; try discriminate. intros [= <-]. apply mask_put_fixed.
Qed.

(** ** pack *)
Definition nfree_of (h : heap) (p : loc) : nat :=
  match look h p with Some (_, _, fl, _, _) => nfree fl | None => 0 end.
Definition total_free h ms := list_sum (map (nfree_of h) ms).

Arguments nfree_of : simpl never.
Arguments total_free : simpl never.
Lemma compress_look h p ow ps fl rm st :
  look h p = Some (ow, ps, fl, rm, st) -> compress V h p = mask_get ps fl.
Proof.
  intros L. destruct (look_obj _ _ _ _ _ _ _ L) as (o & Ho & <- & <- & <- & _).
  unfold compress. now rewrite Ho.
Qed.

Lemma compress_len h p : heap_ok h -> live h p -> length (compress V h p) = nfree_of h p.
Proof.
  intros I [[[[[ow ps] fl] rm] st] L]. rewrite (compress_look _ _ _ _ _ _ _ L). unfold nfree_of. rewrite L.
  apply mask_get_length. destruct (look_len _ _ _ _ _ _ _ I L). congruence.
Qed.

Lemma compress_same h h' p : look h' p = look h p -> compress V h' p = compress V h p.
Proof.
  intros E. unfold compress. unfold Parts.look in E.
  destruct (objs V h p), (objs V h' p); try discriminate; [|reflexivity].
  injection E as E1 E2 E3 E4 E5. now rewrite E2, E3.
Qed.

Lemma nfree_same h h' p : look h' p = look h p -> nfree_of h' p = nfree_of h p.
Proof. unfold nfree_of. now intros ->. Qed.

(** Only parameter values change. *)
Definition same_but_pars (c c' : option (content V)) : Prop :=
  match c, c' with
  | Some (ow, ps, fl, rm, st), Some (ow', ps', fl', rm', st') =>
      ow' = ow /\ fl' = fl /\ rm' = rm /\ st' = st /\ length ps' = length ps /\
      forall i, nth_error fl i = Some false -> nth_error ps' i = nth_error ps i
  | None, None => True
  | _, _ => False
  end.

Lemma same_but_pars_refl c : same_but_pars c c.
Proof. destruct c as [[[[[? ?] ?] ?] ?]|]; cbn; auto 8. Qed.
Lemma same_but_pars_trans a b c : same_but_pars a b -> same_but_pars b c -> same_but_pars a c.
Proof.
  destruct a as [[[[[? ?] ?] ?] ?]|], b as [[[[[? ?] ?] ?] ?]|], c as [[[[[? ?] ?] ?] ?]|];
    cbn; try (intros []; fail); try (intros _ []; fail); [|trivial].
  intros (-> & -> & -> & -> & E & F) (-> & -> & -> & -> & E' & F').
  split; [reflexivity|]. split; [reflexivity|]. split; [reflexivity|]. split; [reflexivity|].
  split; [exact (eq_trans E' E)|]. intros i Hi. rewrite (F' i Hi). exact (F i Hi).
Qed.

Lemma pack_loop_frame h ms v :
  heap_ok h -> (forall p, In p ms -> live h p) ->
  let h' := fst (pack_loop V X W fn h ms v) in
  heap_ok h' /\ (forall p, ~ In p ms -> look h' p = look h p) /\
  (forall p, same_but_pars (look h p) (look h' p)) /\
  (forall e, snd (pack_loop V X W fn h ms v) = Err e -> e = ValueError).
Proof.
  revert h v. induction ms as [|p ms IH]; intros h v I HL; cbn.
  { split; [exact I|]. split; [auto|]. split; [intros; apply same_but_pars_refl|discriminate]. }
  destruct (HL p (or_introl eq_refl)) as [[[[[ow ps] fl] rm] st] L].
  pose proof (update_cases h p ow ps fl rm st v I L) as U.
  destruct (mask_assign ps fl (firstn (nfree fl) v)) as [a|e] eqn:EM.
  - destruct U as (h1 & -> & I1 & L1 & O1).
    assert (HL1 : forall q, In q ms -> live h1 q).
    { intros q Hq. destruct (Nat.eq_dec q p) as [->|N]; [eexists; eauto|].
      destruct (HL q (or_intror Hq)) as [c Hc]. exists c. now rewrite O1. }
    destruct (IH h1 (skipn (nfree fl) v) I1 HL1) as (I2 & F2 & S2 & E2).
    split; [exact I2|]. split.
    { intros q Hq. rewrite F2 by tauto. apply O1. intros ->. tauto. }
    split; [|exact E2].
    intros q. eapply same_but_pars_trans; [|apply S2].
    destruct (Nat.eq_dec q p) as [->|N]; [|rewrite O1 by auto; apply same_but_pars_refl].
    rewrite L, L1. cbn. repeat (split; [reflexivity|]).
    split; [eapply mask_assign_length; eauto|]. intros i Hi. eapply mask_assign_fixed; eauto.
  - rewrite U. cbn. split; [exact I|]. split; [auto|]. split; [intros; apply same_but_pars_refl|].
    intros e' [= <-]. unfold mask_assign in EM. destruct (_ =? _); [discriminate|].
    destruct (firstn _ _) as [|? [|? ?]]; congruence.
Qed.

Lemma total_free_cons h p ms : total_free h (p :: ms) = nfree_of h p + total_free h ms.
Proof. reflexivity. Qed.

Lemma total_free_same h h' ms :
  (forall p, In p ms -> look h' p = look h p) -> total_free h' ms = total_free h ms.
Proof.
  unfold total_free. intros H. f_equal. apply map_ext_in. intros p Hp. apply nfree_same. auto.
Qed.

Lemma unpack_concat_len h ms :
  heap_ok h -> (forall p, In p ms -> live h p) ->
  length (concat (map (compress V h) ms)) = total_free h ms.
Proof.
  intros I. induction ms as [|p ms IH]; intros HL; [reflexivity|].
  cbn. rewrite app_length, compress_len, total_free_cons, IH; auto; intros; apply HL; cbn; auto.
Qed.

Lemma pack_loop_enough h ms v :
  heap_ok h -> NoDup ms -> (forall p, In p ms -> live h p) -> total_free h ms <= length v ->
  exists h', pack_loop V X W fn h ms v = (h', Ok tt) /\
    concat (map (compress V h') ms) = firstn (total_free h ms) v.
Proof.
  revert h v. induction ms as [|p ms IH]; intros h v I ND HL Hv.
  { exists h. split; reflexivity. }
  inversion ND as [|? ? Hni ND']; subst.
  destruct (HL p (or_introl eq_refl)) as [[[[[ow ps] fl] rm] st] L].
  pose proof (update_cases h p ow ps fl rm st v I L) as U.
  rewrite total_free_cons in *. assert (NF : nfree_of h p = nfree fl) by (unfold nfree_of; now rewrite L).
  rewrite NF in *.
  assert (EA : mask_assign ps fl (firstn (nfree fl) v) = Ok (mask_put ps fl (firstn (nfree fl) v))).
  { unfold mask_assign. rewrite firstn_length, Nat.min_l by lia. now rewrite Nat.eqb_refl. }
  rewrite EA in U. destruct U as (h1 & U1 & I1 & L1 & O1).
  assert (SL : forall q, In q ms -> look h1 q = look h q).
  { intros q Hq. apply O1. intros ->. contradiction. }
  assert (HL1 : forall q, In q ms -> live h1 q).
  { intros q Hq. destruct (HL q (or_intror Hq)) as [c Hc]. exists c. now rewrite SL. }
  destruct (IH h1 (skipn (nfree fl) v) I1 ND' HL1) as (h2 & E2 & C2).
  { rewrite skipn_length, (total_free_same h h1 ms SL). lia. }
  exists h2. cbn [pack_loop]. rewrite U1. split; [exact E2|].
  destruct (pack_loop_frame h1 ms (skipn (nfree fl) v) I1 HL1) as (_ & F2 & _).
  rewrite E2 in F2. cbn [fst] in F2. cbn [map concat].
  rewrite (compress_same h1 h2 p (F2 p Hni)), (compress_look _ _ _ _ _ _ _ L1).
  destruct (look_len _ _ _ _ _ _ _ I L) as [Q1 Q2].
  rewrite mask_get_put; [|congruence|rewrite firstn_length; lia].
  rewrite C2, (total_free_same h h1 ms SL).
  rewrite <- (firstn_skipn (nfree fl) v) at 3. rewrite firstn_app, firstn_firstn, firstn_length.
  replace (Nat.min (nfree fl + total_free h ms) (nfree fl)) with (nfree fl) by lia.
  replace (nfree fl + total_free h ms - Nat.min (nfree fl) (length v)) with (total_free h ms) by lia.
  reflexivity.
Qed.

Lemma pack_loop_unpack h ms :
  heap_ok h -> (forall p, In p ms -> live h p) ->
  forall v, exists h', pack_loop V X W fn h ms (concat (map (compress V h) ms) ++ v) = (h', Ok tt) /\
    heap_ok h' /\ forall p, look h' p = look h p.
Proof.
  intros I HL v. assert (G : forall h1, heap_ok h1 -> (forall p, look h1 p = look h p) ->
    exists h', pack_loop V X W fn h1 ms (concat (map (compress V h) ms) ++ v) = (h', Ok tt) /\
    heap_ok h' /\ forall p, look h' p = look h p).
  2:{ apply G; auto. }
  induction ms as [|p ms IH]; intros h1 I1 E1.
  { exists h1. cbn. auto. }
  destruct (HL p (or_introl eq_refl)) as [[[[[ow ps] fl] rm] st] L].
  pose proof L as L0. rewrite <- E1 in L0.
  cbn [map concat pack_loop].
  pose proof (update_cases h1 p ow ps fl rm st ((compress V h p ++ concat (map (compress V h) ms)) ++ v) I1 L0) as U.
  destruct (look_len _ _ _ _ _ _ _ I L) as [Q1 Q2].
  rewrite (compress_look _ _ _ _ _ _ _ L) in *.
  assert (LG : length (mask_get ps fl) = nfree fl) by (apply mask_get_length; congruence).
  rewrite <- app_assoc in *.
  assert (EF : firstn (nfree fl) (mask_get ps fl ++ concat (map (compress V h) ms) ++ v) = mask_get ps fl).
  { rewrite <- LG. rewrite firstn_app, Nat.sub_diag, firstn_all. cbn. apply app_nil_r. }
  rewrite EF in U. unfold mask_assign in U. rewrite LG, Nat.eqb_refl, mask_put_get in U by congruence.
  destruct U as (h2 & U1 & I2 & L2 & O2). rewrite U1.
  assert (ES : skipn (nfree fl) (mask_get ps fl ++ concat (map (compress V h) ms) ++ v)
               = concat (map (compress V h) ms) ++ v).
  { rewrite <- LG. rewrite skipn_app, Nat.sub_diag, skipn_all. reflexivity. }
  rewrite ES. apply IH; auto.
  - intros q Hq. apply HL. now right.
  - intros q. destruct (Nat.eq_dec q p) as [->|N]; [rewrite L2, L; reflexivity|]. rewrite O2; auto.
Qed.

(** Too short a vector is accepted only by broadcasting the last value. *)
Lemma pack_loop_short h ms v :
  heap_ok h -> NoDup ms -> (forall p, In p ms -> live h p) -> length v < total_free h ms ->
  snd (pack_loop V X W fn h ms v) = Ok tt ->
  exists pre p post, ms = pre ++ p :: post /\ length v = total_free h pre + 1 /\
    2 <= nfree_of h p /\ total_free h post = 0.
Proof.
  revert h v. induction ms as [|p ms IH]; intros h v I ND HL Hv HS.
  { unfold total_free in Hv; cbn in Hv; lia. }
  inversion ND as [|? ? Hni ND']; subst.
  destruct (HL p (or_introl eq_refl)) as [[[[[ow ps] fl] rm] st] L].
  pose proof (update_cases h p ow ps fl rm st v I L) as U.
  rewrite total_free_cons in *. assert (NF : nfree_of h p = nfree fl) by (unfold nfree_of; now rewrite L).
  rewrite NF in *. cbn [pack_loop] in HS.
  destruct (mask_assign ps fl (firstn (nfree fl) v)) as [a|e] eqn:EM.
  2:{ rewrite U in HS. discriminate. }
  destruct U as (h1 & U1 & I1 & L1 & O1). rewrite U1 in HS.
  assert (SL : forall q, In q ms -> look h1 q = look h q).
  { intros q Hq. apply O1. intros ->. contradiction. }
  assert (HL1 : forall q, In q ms -> live h1 q).
  { intros q Hq. destruct (HL q (or_intror Hq)) as [c Hc]. exists c. now rewrite SL. }
  destruct (le_lt_dec (nfree fl) (length v)) as [Hle|Hlt].
  - destruct (IH h1 (skipn (nfree fl) v) I1 ND' HL1) as (pre & q & post & -> & E & F & G).
    { rewrite skipn_length, (total_free_same h h1 ms SL). lia. }
    { exact HS. }
    rewrite skipn_length in E.
    exists (p :: pre), q, post. split; [reflexivity|]. rewrite total_free_cons, NF.
    rewrite <- (total_free_same h h1 pre), <- (total_free_same h h1 post), <- (nfree_same h h1 q).
    + repeat split; try assumption. lia.
    + apply SL. apply in_or_app. right. now left.
    + intros x Hx. apply SL. apply in_or_app. right. now right.
    + intros x Hx. apply SL. apply in_or_app. now left.
  - exists [], p, ms. split; [reflexivity|].
    unfold mask_assign in EM. rewrite firstn_length, Nat.min_r in EM by lia.
    destruct (Nat.eqb_spec (length v) (nfree fl)); [lia|].
    rewrite firstn_all2 in EM by lia.
    destruct v as [|x [|? ?]]; try discriminate. cbn in *.
    split; [reflexivity|]. split; [lia|].
    rewrite <- (total_free_same h h1 ms SL).
    assert (HH : skipn (nfree fl) [x] = []) by (apply skipn_all2; cbn; lia). rewrite HH in HS.
    clear - HS HL1 I1. revert h1 I1 HL1 HS. induction ms as [|q ms IH]; intros h1 I1 HL1 HS; [reflexivity|].
    destruct (HL1 q (or_introl eq_refl)) as [[[[[ow ps] fl] rm] st] L].
    pose proof (update_cases h1 q ow ps fl rm st [] I1 L) as U. cbn [pack_loop] in HS.
    rewrite firstn_nil in U. unfold mask_assign in U. cbn [length] in U.
    rewrite total_free_cons. unfold nfree_of at 1. rewrite L.
    destruct (Nat.eqb_spec 0 (nfree fl)) as [E|E].
    + rewrite <- E. destruct U as (h2 & U1 & I2 & L2 & O2). rewrite U1, skipn_nil in HS.
      cbn [Nat.add].
      assert (T : total_free h2 ms = 0); [apply (IH h2 I2)|rewrite <- T].
      * intros z Hz. destruct (Nat.eq_dec z q) as [->|N]; [eexists; eauto|].
        destruct (HL1 z (or_intror Hz)) as [c Hc]. exists c. now rewrite O2.
      * exact HS.
      * unfold total_free. f_equal. apply map_ext_in. intros z Hz.
        unfold nfree_of. destruct (Nat.eq_dec z q) as [->|N].
        -- rewrite L2, L. reflexivity.
        -- now rewrite O2.
    + rewrite U in HS. discriminate.
Qed.

(** ** counting *)
Lemma m_npars_sum h b ms : m_npars V X W fn h b ms = list_sum (map (npars V X W fn h b) ms).
Proof.
  assert (G : forall n, fold_left (fun n p => n + npars V X W fn h b p) ms n
                        = n + list_sum (map (npars V X W fn h b) ms)).
  { induction ms as [|p ms IH]; intros n; cbn; [lia|]. rewrite IH. unfold list_sum. lia. }
  apply (G 0).
Qed.

Lemma nfree_le fl : nfree fl <= length fl.
Proof. unfold nfree. induction fl as [|[] l IH]; cbn; lia. Qed.

Lemma npars_look h p ow ps fl rm st :
  heap_ok h -> look h p = Some (ow, ps, fl, rm, st) ->
  npars V X W fn h true p = length ps /\ npars V X W fn h false p = nfree fl.
Proof.
  intros I L. destruct (look_len _ _ _ _ _ _ _ I L) as [Q _].
  destruct (look_obj _ _ _ _ _ _ _ L) as (o & Ho & <- & <- & <- & _).
  unfold npars. rewrite Ho. auto.
Qed.

(** ** single operations as content transformers *)
Lemma changeowner_cases h p ow ps fl rm st ow' :
  heap_ok h -> look h p = Some (ow, ps, fl, rm, st) ->
  (changeowner V X W fn h p ow' = (h, Err GenericException) /\
     ((st = true /\ ow <> ow') \/ f_npars (fn ow) <> f_npars (fn ow'))) \/
  (exists h', changeowner V X W fn h p ow' = (h', Ok tt) /\ heap_ok h' /\
     (st = true -> ow = ow') /\ f_npars (fn ow) = f_npars (fn ow') /\
     look h' p = Some (ow', ps, fl, rm, st) /\ forall q, q <> p -> look h' q = look h q).
Proof.
  intros I L. destruct (look_obj _ _ _ _ _ _ _ L) as (o & Ho & <- & <- & <- & <- & <-).
  unfold changeowner. rewrite Ho.
  destruct (static_owner o && negb (owner o =? ow')) eqn:E.
  { left. split; [reflexivity|]. apply andb_true_iff in E. destruct E as [E1 E2].
    left. split; [exact E1|]. destruct (Nat.eqb_spec (owner o) ow'); [discriminate|assumption]. }
  destruct (Nat.eqb_spec (f_npars (fn (owner o))) (f_npars (fn ow'))) as [E2|E2]; cbn [negb].
  2:{ left. auto. }
  right. eexists. split; [reflexivity|]. split; [|split; [|split; [exact E2|split]]].
  - split; cbn; unfold set.
    + intros q b. destruct (Nat.eqb_spec q p) as [->|]; [intros [= <-]; cbn|]; intros; eapply (ok_lt h I); eauto.
    + intros q b. destruct (Nat.eqb_spec q p) as [->|]; [intros [= <-]; cbn|]; intros.
      * rewrite <- E2. apply (ok_len h I _ _ Ho).
      * apply (ok_len h I _ _ H).
    + intros q q' a b. destruct (Nat.eqb_spec q p) as [->|]; destruct (Nat.eqb_spec q' p) as [->|].
      * congruence.
      * intros [= <-] H N. cbn. apply (ok_sep h I _ _ _ _ Ho H N).
      * intros H [= <-] N. cbn. apply (ok_sep h I _ _ _ _ H Ho N).
      * apply (ok_sep h I).
  - intros Hs. rewrite Hs in E. cbn in E. destruct (Nat.eqb_spec (owner o) ow'); [assumption|discriminate].
  - unfold Parts.look. cbn. rewrite set_same. reflexivity.
  - intros q N. unfold Parts.look. cbn. now rewrite set_other.
Qed.

Lemma normalize_cases h p ow ps fl rm st :
  norm_keeps_length -> heap_ok h -> look h p = Some (ow, ps, fl, rm, st) ->
  match f_norm (fn ow) ps with
  | Err e => normalize V X W fn h p = (h, Err e)
  | Ok a => exists h', normalize V X W fn h p = (h', Ok tt) /\ heap_ok h' /\
      look h' p = Some (ow, a, fl, rm, st) /\ forall q, q <> p -> look h' q = look h q
  end.
Proof.
  intros NK I L. destruct (look_obj _ _ _ _ _ _ _ L) as (o & Ho & <- & <- & <- & <- & <-).
  unfold normalize. rewrite Ho. destruct (f_norm _ _) as [a|e] eqn:EN; [|reflexivity].
  eexists. split; [reflexivity|]. split; [|split].
  - split; cbn; unfold set.
    + intros q b. destruct (Nat.eqb_spec q p) as [->|]; [intros [= <-]; cbn|]; intros.
      * pose proof (ok_lt h I _ _ Ho). lia.
      * pose proof (ok_lt h I _ _ H). lia.
    + intros q b. destruct (Nat.eqb_spec q p) as [->|]; [intros [= <-]; cbn|]; intros.
      * rewrite Nat.eqb_refl. rewrite (NK _ _ _ EN). apply (ok_len h I _ _ Ho).
      * pose proof (ok_lt h I _ _ H). destruct (Nat.eqb_spec (pars b) (fresh V h)); [lia|].
        apply (ok_len h I _ _ H).
    + intros q q' a' b. destruct (Nat.eqb_spec q p) as [->|]; destruct (Nat.eqb_spec q' p) as [->|].
      * congruence.
      * intros [= <-] H N. pose proof (ok_lt h I _ _ H). cbn. split; [lia|]. apply (ok_sep h I _ _ _ _ Ho H N).
      * intros H [= <-] N. pose proof (ok_lt h I _ _ H). cbn. split; [lia|]. apply (ok_sep h I _ _ _ _ H Ho N).
      * apply (ok_sep h I).
  - unfold Parts.look. cbn. rewrite set_same. cbn. now rewrite set_same.
  - intros q N. unfold Parts.look. cbn. rewrite set_other by assumption.
    destruct (objs V h q) as [b|] eqn:Hq; [|reflexivity].
    pose proof (ok_lt h I _ _ Hq). now rewrite set_other by lia.
Qed.

Lemma upd_len {A} (l : list A) i a : length (upd l i a) = length l.
Proof. revert i; induction l; intros []; cbn; auto. Qed.

Lemma exec_ok h o :
  norm_keeps_length -> heap_ok h ->
  heap_ok (exec V X W fn h o) /\
  forall p, live h p -> writes V o <> Some p -> look (exec V X W fn h o) p = look h p.
Proof.
  intros NK I. destruct o as [ow ps fr rm st|p|p v|p i b|p ow|p i v|p]; cbn [exec writes].
  - pose proof (construct_cases h ow ps fr rm st I) as C.
    destruct (construct _ _ _ _ _ _ _ _ _ _) as [h' [q|e]]; cbn [fst].
    + destruct C as (_ & _ & I' & N & _ & F). split; [exact I'|]. intros p [c Hc] _. apply F. congruence.
    + destruct C as (-> & _). auto.
  - destruct (look h p) as [[[[[ow ps] fl] rm] st]|] eqn:L.
    + destruct (copy_part_ok h p ow ps fl rm st I L) as (h' & q & -> & I' & N & _ & F). cbn.
      split; [exact I'|]. intros p' [c Hc] _. apply F. congruence.
    + unfold copy_part. unfold Parts.look in L. destruct (objs V h p); [discriminate|]. cbn. auto.
  - destruct (look h p) as [[[[[ow ps] fl] rm] st]|] eqn:L.
    + pose proof (update_cases h p ow ps fl rm st v I L) as U. destruct (mask_assign _ _ _) as [a|e].
      * destruct U as (h' & -> & I' & _ & F). cbn. split; [exact I'|]. intros q _ Hq. apply F. congruence.
      * rewrite U. cbn. auto.
    + unfold update. unfold Parts.look in L. destruct (objs V h p); [discriminate|]. cbn. auto.
  - unfold setfree. destruct (objs V h p) as [ob|] eqn:Ho; [|cbn; auto].
    destruct (pyget _ _); [|cbn; auto]. cbn [fst].
    destruct (set_flags_ok h p ob (upd (flags V h (free ob))
      (Z.to_nat (if (i <? 0)%Z then (i + Z.of_nat (length (flags V h (free ob))))%Z else i)) b) I Ho) as (I' & _ & F).
    { apply upd_len. }
    split; [exact I'|]. intros q _ Hq. apply F. congruence.
  - destruct (look h p) as [[[[[ow0 ps] fl] rm] st]|] eqn:L.
    + destruct (changeowner_cases h p ow0 ps fl rm st ow I L) as [[-> _]|(h' & -> & I' & _ & _ & _ & F)]; cbn; [auto|].
      split; [exact I'|]. intros q _ Hq. apply F. congruence.
    + unfold changeowner. unfold Parts.look in L. destruct (objs V h p); [discriminate|]. cbn. auto.
  - unfold poke. destruct (objs V h p) as [ob|] eqn:Ho; [|cbn; auto].
    destruct (_ <? _); [|cbn; auto]. cbn [fst].
    destruct (set_vals_ok h p ob (upd (vals V h (pars ob)) i v) I Ho) as (I' & _ & F).
    { apply upd_len. }
    split; [exact I'|]. intros q _ Hq. apply F. congruence.
  - destruct (look h p) as [[[[[ow0 ps] fl] rm] st]|] eqn:L.
    + pose proof (normalize_cases h p ow0 ps fl rm st NK I L) as U. destruct (f_norm _ _).
      * destruct U as (h' & -> & I' & _ & F). cbn. split; [exact I'|]. intros q _ Hq. apply F. congruence.
      * rewrite U. cbn. auto.
    + unfold normalize. unfold Parts.look in L. destruct (objs V h p); [discriminate|]. cbn. auto.
Qed.

Lemma exec_all_ok os h :
  norm_keeps_length -> heap_ok h ->
  heap_ok (exec_all V X W fn h os) /\
  forall p, live h p -> (forall o, In o os -> writes V o <> Some p) ->
    look (exec_all V X W fn h os) p = look h p.
Proof.
  intros NK. revert h. induction os as [|o os IH]; intros h I; cbn.
  { auto. }
  destruct (exec_ok h o NK I) as [I1 F1]. destruct (IH _ I1) as [I2 F2]. split; [exact I2|].
  intros p Hl Hw. rewrite F2.
  - apply F1; auto.
  - destruct Hl as [c Hc]. exists c. rewrite F1; auto. eexists; eauto.
  - intros o' Ho'. apply Hw. now right.
Qed.

(** ** copies *)
Lemma copy_parts_ok ms : forall h,
  heap_ok h -> (forall p, In p ms -> live h p) ->
  exists h' qs, copy_parts V X W fn h ms = (h', Ok qs) /\ heap_ok h' /\ length qs = length ms /\
    NoDup qs /\ (forall q, In q qs -> look h q = None) /\
    (forall p, live h p -> look h' p = look h p) /\
    (forall i p q, nth_error ms i = Some p -> nth_error qs i = Some q -> look h' q = look h p).
Proof.
  induction ms as [|p ms IH]; intros h I HL.
  { exists h, []. cbn. split; [reflexivity|]. split; [exact I|]. split; [reflexivity|].
    split; [constructor|]. split; [tauto|]. split; [auto|]. intros [] ? ? H; discriminate. }
  destruct (HL p (or_introl eq_refl)) as [[[[[ow ps] fl] rm] st] L].
  destruct (copy_part_ok h p ow ps fl rm st I L) as (h1 & q & E1 & I1 & N1 & L1 & F1).
  assert (P1 : forall p', live h p' -> look h1 p' = look h p').
  { intros p' [c Hc]. apply F1. congruence. }
  destruct (IH h1 I1) as (h2 & qs & E2 & I2 & Len & ND & Nn & P2 & C2).
  { intros p' Hp'. destruct (HL p' (or_intror Hp')) as [c Hc]. exists c. rewrite P1; [exact Hc|eexists; eauto]. }
  cbn [copy_parts]. rewrite E1, E2. exists h2, (q :: qs).
  split; [reflexivity|]. split; [exact I2|]. split; [cbn; lia|]. split; [|split; [|split]].
  - constructor; [|exact ND]. intros Hin. specialize (Nn _ Hin). congruence.
  - intros q' [<-|Hin]; [exact N1|]. specialize (Nn _ Hin).
    destruct (look h q') eqn:E; [|reflexivity]. rewrite F1 in Nn; [congruence|]. intros ->. congruence.
  - intros p' Hp'. rewrite P2, P1; auto. destruct Hp' as [c Hc]. exists c. rewrite P1; [exact Hc|eexists; eauto].
  - intros [|i] p' q' Hp Hq; cbn in Hp, Hq.
    + injection Hp as <-. injection Hq as <-. rewrite P2; [rewrite L1, L; reflexivity|]. eexists; eauto.
    + rewrite (C2 i p' q' Hp Hq). apply P1. apply HL. right. eapply nth_error_In; eauto.
Qed.

Lemma all_eq_refl {A} (eqb : A -> A -> bool) l : (forall a, In a l -> eqb a a = true) -> all_eq eqb l l = true.
Proof. induction l as [|a l IH]; cbn; intros H; [reflexivity|]. rewrite H, IH; auto. Qed.

(** ** fit *)
Variable isnan : V -> bool.
Lemma pack_frame h ms v :
  heap_ok h -> (forall p, In p ms -> live h p) ->
  let h' := fst (pack V X W isnan fn h ms v) in
  heap_ok h' /\ (forall p, ~ In p ms -> look h' p = look h p) /\
  (forall p, same_but_pars (look h p) (look h' p)) /\
  (forall e, snd (pack V X W isnan fn h ms v) = Err e -> e = ValueError).
Proof.
  intros I HL. unfold pack. destruct (existsb isnan v).
  - cbn. split; [exact I|]. split; [auto|]. split; [intros; apply same_but_pars_refl|congruence].
  - apply pack_loop_frame; auto.
Qed.

Lemma same_live h h' p : same_but_pars (look h p) (look h' p) -> live h p -> live h' p.
Proof.
  intros S [c Hc]. rewrite Hc in S. unfold live. destruct (look h' p) as [d|]; [eauto|].
  destruct c as [[[[? ?] ?] ?] ?]. cbn in S. contradiction.
Qed.

Lemma run_lsq_frame ms qs : forall h out,
  heap_ok h -> (forall p, In p ms -> live h p) ->
  let h' := fst (run_lsq V X W isnan fn h ms qs out) in
  heap_ok h' /\ (forall p, ~ In p ms -> look h' p = look h p) /\
  (forall p, same_but_pars (look h p) (look h' p)) /\
  (snd (run_lsq V X W isnan fn h ms qs out) = out \/
   snd (run_lsq V X W isnan fn h ms qs out) = LRaise V ValueError).
Proof.
  induction qs as [|q qs IH]; intros h out I HL; cbn.
  { split; [exact I|]. split; [auto|]. split; [intros; apply same_but_pars_refl|auto]. }
  destruct (pack_frame h ms q I HL) as (I1 & F1 & S1 & E1).
  destruct (pack V X W isnan fn h ms q) as [h1 [[]|e]]; cbn in *.
  - destruct (IH h1 out I1) as (I2 & F2 & S2 & E2).
    { intros p Hp. eapply same_live; [apply S1|auto]. }
    split; [exact I2|]. split; [|split; [|exact E2]].
    + intros p Hp. rewrite F2, F1; auto.
    + intros p. eapply same_but_pars_trans; eauto.
  - split; [exact I1|]. split; [exact F1|]. split; [exact S1|]. right. now rewrite (E1 e eq_refl).
Qed.

Lemma norm_loop_ok ms : forall h,
  norm_keeps_length -> heap_ok h -> NoDup ms -> (forall p, In p ms -> live h p) ->
  let h' := fst (norm_loop V X W fn h ms) in
  heap_ok h' /\ (forall p, ~ In p ms -> look h' p = look h p) /\
  (snd (norm_loop V X W fn h ms) = Ok tt ->
   forall p ow ps fl rm st, In p ms -> look h p = Some (ow, ps, fl, rm, st) ->
     exists a, f_norm (fn ow) ps = Ok a /\ look h' p = Some (ow, a, fl, rm, st)) /\
  (forall e, snd (norm_loop V X W fn h ms) = Err e ->
     exists p ow ps fl rm st, In p ms /\ look h p = Some (ow, ps, fl, rm, st) /\ f_norm (fn ow) ps = Err e).
Proof.
  induction ms as [|p ms IH]; intros h NK I ND HL; cbn.
  { split; [exact I|]. split; [auto|]. split; [tauto|discriminate]. }
  inversion ND as [|? ? Hni ND']; subst.
  destruct (HL p (or_introl eq_refl)) as [[[[[ow ps] fl] rm] st] L].
  pose proof (normalize_cases h p ow ps fl rm st NK I L) as U.
  destruct (f_norm (fn ow) ps) as [a|e] eqn:EN.
  - destruct U as (h1 & -> & I1 & L1 & O1). cbn.
    destruct (IH h1 NK I1 ND') as (I2 & F2 & S2 & E2).
    { intros q Hq. destruct (HL q (or_intror Hq)) as [c Hc]. exists c. rewrite O1; auto. intros ->; contradiction. }
    split; [exact I2|]. split; [|split].
    + intros q Hq. rewrite F2 by tauto. apply O1. intros ->. tauto.
    + intros HS q ow' ps' fl' rm' st' [<-|Hq] Lq.
      * rewrite L in Lq. injection Lq as <- <- <- <- <-. exists a. split; [exact EN|]. rewrite F2; auto.
      * apply S2; auto. rewrite O1; auto. intros ->; contradiction.
    + intros e He. destruct (E2 e He) as (q & ow' & ps' & fl' & rm' & st' & Hq & Lq & Nq).
      exists q, ow', ps', fl', rm', st'. split; [now right|]. split; [|exact Nq].
      rewrite <- O1; auto. intros ->; contradiction.
  - rewrite U. cbn. split; [exact I|]. split; [auto|]. split; [discriminate|].
    intros e' [= <-]. exists p, ow, ps, fl, rm, st. auto.
Qed.
(** ** values *)
Variable wzero : W.
Variable wadd : W -> W -> W.
Lemma fvalue_owner h self p o r rng :
  objs V h p = Some o -> self <> owner o -> fvalue V X W wzero fn h self p r rng = Err ValueError.
Proof.
  intros Ho N. unfold fvalue. rewrite Ho. destruct (Nat.eqb_spec self (owner o)); [contradiction|reflexivity].
Qed.

Definition pointwise (f : func V X W) (g : list V -> X -> W) :=
  forall ps r, f_value f ps r = map (g ps) r.

Lemma clip_le n o d : d <= n -> clip n o d <= n.
Proof. unfold clip. destruct o; [|auto]. lia. Qed.
Lemma slice_lo_le n s : slice_lo n s <= n.
Proof. apply clip_le. lia. Qed.
Lemma slice_hi_le n s : slice_hi n s <= n.
Proof. unfold slice_hi. pose proof (slice_lo_le n s). pose proof (clip_le n (snd s) n). lia. Qed.
Lemma slice_lo_hi n s : slice_lo n s <= slice_hi n s.
Proof. unfold slice_hi. lia. Qed.

Definition full n : option Z * option Z := (Some 0%Z, Some (Z.of_nat n)).
Lemma full_lo n : slice_lo n (full n) = 0.
Proof. unfold slice_lo, clip. cbn. lia. Qed.
Lemma full_hi n : slice_hi n (full n) = n.
Proof.
  unfold slice_hi, slice_lo, clip. cbn. destruct (Z.ltb_spec (Z.of_nat n) 0); [lia|]. rewrite Nat2Z.id. lia.
Qed.

Definition rng_of n rng := match rng with None => full n | Some s => s end.
Definition in_rng n rng i := slice_lo n (rng_of n rng) <= i < slice_hi n (rng_of n rng).

Lemma nth_error_repeat {A} (a : A) n i : i < n -> nth_error (repeat a n) i = Some a.
Proof. revert i; induction n; intros [|i] H; cbn; try lia; [reflexivity|]. apply IHn. lia. Qed.

Lemma pvalue_pointwise h p ow ps fl rm st r rng g :
  look h p = Some (ow, ps, fl, rm, st) -> pointwise (fn ow) g ->
  exists v, pvalue V X W wzero fn h p r rng = Ok v /\ length v = length r /\
    forall i x, nth_error r i = Some x ->
      (in_rng (length r) rng i -> nth_error v i = Some (g ps x)) /\
      (~ in_rng (length r) rng i -> nth_error v i = Some wzero).
Proof.
  intros L PW. destruct (look_obj _ _ _ _ _ _ _ L) as (o & Ho & <- & <- & <- & <- & <-).
  unfold pvalue, fvalue. rewrite Ho, Nat.eqb_refl. cbn [negb].
  change (match rng with Some s => s | None => (Some 0%Z, Some (Z.of_nat (length r))) end)
    with (rng_of (length r) rng).
  unfold in_rng. set (s := rng_of (length r) rng). clearbody s.
  pose proof (slice_lo_hi (length r) s). pose proof (slice_hi_le (length r) s).
  set (lo := slice_lo (length r) s) in *. set (hi := slice_hi (length r) s) in *.
  rewrite PW. eexists. split; [reflexivity|].
  assert (LM : length (firstn (hi - lo) (skipn lo r)) = hi - lo) by (rewrite firstn_length, skipn_length; lia).
  split.
  { rewrite !app_length, !repeat_length, map_length, LM. lia. }
  intros i x Hx. assert (Hi : i < length r) by (apply nth_error_Some; congruence).
  split; intros Hr.
  - rewrite nth_error_app2 by (rewrite repeat_length; lia). rewrite repeat_length.
    rewrite nth_error_app1 by (rewrite map_length, LM; lia).
    rewrite nth_error_map. replace (nth_error (firstn (hi - lo) (skipn lo r)) (i - lo)) with (Some x); [reflexivity|].
    rewrite <- Hx. symmetry. rewrite <- (firstn_skipn lo r) at 2.
    rewrite nth_error_app2; rewrite firstn_length, Nat.min_l by lia; [|lia].
    rewrite <- (firstn_skipn (hi - lo) (skipn lo r)) at 2.
    rewrite nth_error_app1 by (rewrite LM; lia). reflexivity.
  - destruct (le_lt_dec lo i) as [Hlo|Hlo].
    + rewrite nth_error_app2 by (rewrite repeat_length; lia). rewrite repeat_length.
      rewrite nth_error_app2 by (rewrite map_length, LM; lia). rewrite map_length, LM.
      apply nth_error_repeat. lia.
    + rewrite nth_error_app1 by (rewrite repeat_length; lia). apply nth_error_repeat. lia.
Qed.

Lemma vadd_length a b : length a = length b -> length (vadd W wadd a b) = length a.
Proof. intros H. unfold vadd. rewrite map_length, combine_length. lia. Qed.

Lemma vadd_nth a b i x y :
  nth_error a i = Some x -> nth_error b i = Some y -> nth_error (vadd W wadd a b) i = Some (wadd x y).
Proof.
  revert b i. induction a as [|u a IH]; intros [|w b] [|i] Ha Hb; cbn in *; try discriminate.
  - injection Ha as ->. injection Hb as ->. reflexivity.
  - apply IH; auto.
Qed.

(** The value at point i of the model whose part values at that point are [vs]. *)
Lemma value_loop_ok h ms r rng acc :
  (forall p, In p ms -> exists v, pvalue V X W wzero fn h p r rng = Ok v /\ length v = length r) ->
  length acc = length r ->
  exists t, value_loop V X W wzero wadd fn h ms r rng acc = Ok t /\ length t = length r /\
    forall i a, nth_error acc i = Some a ->
      exists vs, Forall2 (fun p w => exists v, pvalue V X W wzero fn h p r rng = Ok v /\ nth_error v i = Some w) ms vs /\
        nth_error t i = Some (fold_left wadd vs a).
Proof.
  revert acc. induction ms as [|p ms IH]; intros acc HV HL; cbn.
  { exists acc. split; [reflexivity|]. split; [exact HL|]. intros i a Ha. exists []. split; [constructor|exact Ha]. }
  destruct (HV p (or_introl eq_refl)) as (v & Ev & Lv). rewrite Ev. cbn.
  destruct (IH (vadd W wadd acc v)) as (t & Et & Lt & Ht).
  { intros; apply HV; now right. }
  { rewrite vadd_length; congruence. }
  exists t. split; [exact Et|]. split; [exact Lt|]. intros i a Ha.
  assert (Hi : i < length v) by (rewrite Lv, <- HL; apply nth_error_Some; congruence).
  destruct (nth_error v i) as [w|] eqn:Hw; [|apply nth_error_None in Hw; lia].
  destruct (Ht i (wadd a w)) as (vs & F & N); [apply vadd_nth; auto|].
  exists (w :: vs). split; [|exact N]. constructor; [eauto|exact F].
Qed.

End P.

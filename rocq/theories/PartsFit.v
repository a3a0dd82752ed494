(** Outcome of ModelParts.fit for every behaviour of the optimiser. *)
From Verif Require Import Prelude Parts PartsProofs.

Section F.
Variables V X W : Type.
Variable isnan : V -> bool.
Variable fn : nat -> func V X W.
Notation heap := (heap V).
Notation look := (look V).
Notation heap_ok := (heap_ok V X W fn).
Notation live := (live V).
Notation total_free := (total_free V).

Definition flags_of (h : heap) (p : loc) : list bool :=
  match look h p with Some (_, _, fl, _, _) => fl | None => [] end.

(** [stored h h' ms x]: in h' the free parameters of the parts ms hold the vector x,
    then every part was put in its normal form; all else is as in h. *)
Definition stored (h h' : heap) (ms : list loc) (x : list V) : Prop :=
  exists ps1 : loc -> list V,
    concat (map (fun p => mask_get (ps1 p) (flags_of h p)) ms) = x /\
    (forall p ow ps fl rm st, In p ms -> look h p = Some (ow, ps, fl, rm, st) ->
       length (ps1 p) = length ps /\
       (forall i, nth_error fl i = Some false -> nth_error (ps1 p) i = nth_error ps i) /\
       exists a, f_norm (fn ow) (ps1 p) = Ok a /\ look h' p = Some (ow, a, fl, rm, st)) /\
    (forall p, ~ In p ms -> look h' p = look h p).

Definition pars_of (h : heap) (p : loc) : list V :=
  match look h p with Some (_, ps, _, _, _) => ps | None => [] end.

Definition meta_same (h h' : heap) (ms : list loc) : Prop :=
  (forall p, ~ In p ms -> look h' p = look h p) /\
  forall p ow ps fl rm st, look h p = Some (ow, ps, fl, rm, st) ->
    exists ps', look h' p = Some (ow, ps', fl, rm, st) /\ length ps' = length ps.

Lemma sbp_meta h h' ms :
  (forall p, ~ In p ms -> look h' p = look h p) ->
  (forall p, same_but_pars V (look h p) (look h' p)) -> meta_same h h' ms.
Proof.
  intros F S. split; [exact F|]. intros p ow ps fl rm st L. specialize (S p). rewrite L in S.
  destruct (look h' p) as [[[[[ow' ps'] fl'] rm'] st']|]; cbn in S; [|contradiction].
  destruct S as (-> & -> & -> & -> & E & _). eauto.
Qed.

Lemma meta_trans a b c ms : meta_same a b ms -> meta_same b c ms -> meta_same a c ms.
Proof.
  intros [F1 M1] [F2 M2]. split.
  - intros p Hp. rewrite F2, F1; auto.
  - intros p ow ps fl rm st L. destruct (M1 _ _ _ _ _ _ L) as (ps' & L' & E').
    destruct (M2 _ _ _ _ _ _ L') as (ps2 & L2 & E2). exists ps2. split; [exact L2|congruence].
Qed.

Lemma norm_meta ms : forall h, norm_keeps_length V X W fn -> heap_ok h -> (forall p, In p ms -> live h p) ->
  meta_same h (fst (norm_loop V X W fn h ms)) ms.
Proof.
  induction ms as [|p ms IH]; intros h NK I HL; cbn.
  { split; [auto|]. intros; eauto. }
  destruct (HL p (or_introl eq_refl)) as [[[[[ow ps] fl] rm] st] L].
  pose proof (normalize_cases V X W fn h p ow ps fl rm st NK I L) as U.
  destruct (f_norm (fn ow) ps) as [a|e] eqn:EN.
  - destruct U as (h1 & -> & I1 & L1 & O1).
    assert (M1 : meta_same h h1 (p :: ms)).
    { split.
      - intros q Hq. apply O1. intros ->. apply Hq. now left.
      - intros q ow' ps' fl' rm' st' Lq. destruct (Nat.eq_dec q p) as [->|N].
        + rewrite L in Lq. injection Lq as <- <- <- <- <-. exists a. split; [exact L1|]. eapply NK; eauto.
        + exists ps'. rewrite O1; auto. }
    eapply meta_trans; [exact M1|].
    destruct (IH h1 NK I1) as [F2 M2].
    { intros q Hq. destruct (HL q (or_intror Hq)) as [[[[[ow' ps'] fl'] rm'] st'] Lq].
      destruct (proj2 M1 _ _ _ _ _ _ Lq) as (z & Lz & _). eexists; eauto. }
    split; [|exact M2]. intros q Hq. apply F2. intros H; apply Hq; now right.
  - rewrite U. cbn. split; [auto|]. intros; eauto.
Qed.

Definition owner_is (h : heap) p ow := exists ps fl rm st, look h p = Some (ow, ps, fl, rm, st).

Lemma fit_finish_ok h ms out wc :
  norm_keeps_length V X W fn -> heap_ok h -> NoDup ms -> (forall p, In p ms -> live h p) ->
  (forall x ier pc, out = LDone V x ier pc -> length x = total_free h ms) ->
  let (h', res) := fit_finish V X W isnan fn h ms out wc in
  meta_same h h' ms /\
  match res with
  | Ok _ => exists x ier pc, out = LDone V x ier pc /\ (1 <= ier <= 4)%Z /\ existsb isnan x = false /\
      (wc = true -> pc = true) /\ stored h h' ms x
  | Err e => out = LRaise V e \/
      (exists x ier pc, out = LDone V x ier pc /\
         ((e = ValueError /\ existsb isnan x = true /\ h' = h) \/
          (e = FitError /\ ~ (1 <= ier <= 4)%Z) \/
          ((1 <= ier <= 4)%Z /\ exists p ow ps1, In p ms /\ owner_is h p ow /\ f_norm (fn ow) ps1 = Err e) \/
          (e = TypeError /\ (1 <= ier <= 4)%Z /\ wc = true /\ pc = false)))
  end.
Proof.
  intros NK I ND HL HX. destruct out as [x ier pc|e]; cbn [fit_finish].
  2:{ split; [|auto]. split; [auto|]. intros; eauto. }
  specialize (HX x ier pc eq_refl).
  destruct (pack_frame V X W fn isnan h ms x I HL) as (I1 & F1 & S1 & _).
  destruct (existsb isnan x) eqn:EN.
  { unfold pack. rewrite EN. split; [split; [auto|intros; eauto]|]. right. exists x, ier, pc. auto. }
  destruct (pack_loop_enough V X W fn h ms x I ND HL ltac:(rewrite HX; apply le_n)) as (h1 & E1 & C1).
  assert (EP : pack V X W isnan fn h ms x = (h1, Ok tt)) by (unfold pack; now rewrite EN).
  rewrite EP in *. cbn [fst] in *.
  pose proof (sbp_meta h h1 ms F1 S1) as M1.
  destruct ((1 <=? ier) && (ier <=? 4))%Z eqn:EI; cbn [negb].
  2:{ split; [exact M1|]. right. exists x, ier, pc. split; [reflexivity|]. right; left. split; [reflexivity|].
      intros [A B]. apply andb_false_iff in EI. destruct EI as [EI|EI]; apply Z.leb_gt in EI; lia. }
  apply andb_true_iff in EI. destruct EI as [EI1 EI2]. apply Z.leb_le in EI1, EI2.
  assert (HL1 : forall p, In p ms -> live h1 p).
  { intros p Hp. destruct (HL p Hp) as [[[[[ow ps] fl] rm] st] L].
    destruct (proj2 M1 _ _ _ _ _ _ L) as (z & Lz & _). eexists; eauto. }
  destruct (norm_loop_ok V X W fn ms h1 NK I1 ND HL1) as (I2 & F2 & N2 & E2).
  pose proof (norm_meta ms h1 NK I1 HL1) as M2.
  pose proof (meta_trans _ _ _ _ M1 M2) as M12.
  assert (OW : forall p ow ps fl rm st, look h1 p = Some (ow, ps, fl, rm, st) -> In p ms -> owner_is h p ow).
  { intros p ow ps fl rm st L Hp. destruct (HL p Hp) as [[[[[ow' ps'] fl'] rm'] st'] L'].
    destruct (proj2 M1 _ _ _ _ _ _ L') as (z & Lz & _). rewrite L in Lz. injection Lz as <- <- <- <- <-.
    exists ps', fl, rm, st. exact L'. }
  assert (ST : snd (norm_loop V X W fn h1 ms) = Ok tt -> stored h (fst (norm_loop V X W fn h1 ms)) ms x).
  { intros HS. exists (pars_of h1). split; [|split].
    - rewrite <- (firstn_all x), HX, <- C1. f_equal. apply map_ext_in. intros p Hp.
      destruct (HL p Hp) as [[[[[ow ps] fl] rm] st] L].
      destruct (proj2 M1 _ _ _ _ _ _ L) as (z & Lz & _).
      unfold pars_of, flags_of. rewrite Lz, L. symmetry. eapply compress_look; eauto.
    - intros p ow ps fl rm st Hp L. specialize (S1 p). rewrite L in S1.
      unfold pars_of. destruct (look h1 p) as [[[[[ow' ps'] fl'] rm'] st']|] eqn:L1; cbn in S1; [|contradiction].
      destruct S1 as (-> & -> & -> & -> & EL & EF). split; [exact EL|]. split; [exact EF|].
      exact (N2 HS p ow ps' fl rm st Hp L1).
    - apply (proj1 M12). }
  destruct (norm_loop V X W fn h1 ms) as [h2 [[]|e]]; cbn [fst snd] in *.
  - destruct wc, pc; cbn [andb negb]; (split; [exact M12|]);
      try (exists x, ier, true; repeat split; auto; fail);
      try (exists x, ier, false; repeat split; auto; fail);
      try (exists x, ier, true; repeat split; auto; discriminate).
    right. exists x, ier, false. split; [reflexivity|]. right; right; right. auto.
  - split; [exact M12|]. right. exists x, ier, pc. split; [reflexivity|]. right; right; left. split; [lia|].
    destruct (E2 e eq_refl) as (p & ow & ps & fl & rm & st & Hp & L & N). exists p, ow, ps. eauto.
Qed.

Lemma sbp_total h h' ms :
  (forall p, same_but_pars V (look h p) (look h' p)) -> total_free h' ms = total_free h ms.
Proof.
  intros S. unfold PartsProofs.total_free. f_equal. apply map_ext. intros p. unfold nfree_of.
  specialize (S p). destruct (look h p) as [[[[[? ?] ?] ?] ?]|], (look h' p) as [[[[[? ?] ?] ?] ?]|];
    cbn in S; try contradiction; [|reflexivity]. destruct S as (_ & -> & _). reflexivity.
Qed.

Lemma stored_before h h1 h' ms x :
  (forall p, In p ms -> live h p) ->
  (forall p, ~ In p ms -> look h1 p = look h p) ->
  (forall p, same_but_pars V (look h p) (look h1 p)) -> stored h1 h' ms x -> stored h h' ms x.
Proof.
  intros HL F S (ps1 & C & D & E). exists ps1. split; [|split].
  - rewrite <- C. f_equal. apply map_ext_in. intros p Hp. f_equal. unfold flags_of.
    specialize (S p). destruct (look h p) as [[[[[? ?] ?] ?] ?]|], (look h1 p) as [[[[[? ?] ?] ?] ?]|];
      cbn in S; try contradiction; [|reflexivity]. destruct S as (_ & -> & _). reflexivity.
  - intros p ow ps fl rm st Hp L. specialize (S p). rewrite L in S.
    destruct (look h1 p) as [[[[[ow' ps'] fl'] rm'] st']|] eqn:L1; cbn in S; [|contradiction].
    destruct S as (-> & -> & -> & -> & EL & EF).
    destruct (D p ow ps' fl rm st Hp L1) as (A1 & A2 & A3).
    split; [exact (eq_trans A1 EL)|]. split; [|exact A3].
    intros i Hi. rewrite (A2 i Hi). exact (EF i Hi).
  - intros p Hp. rewrite (E p Hp). apply F. exact Hp.
Qed.

(** The full outcome of fit. *)
Lemma fit_outcome h ms n wc t1 t2 :
  norm_keeps_length V X W fn -> heap_ok h -> NoDup ms -> (forall p, In p ms -> live h p) ->
  (forall x ier pc, snd t1 = LDone V x ier pc -> length x = total_free h ms) ->
  (forall x ier pc, snd t2 = LDone V x ier pc -> length x = total_free h ms) ->
  0 < total_free h ms < n ->
  let (h', res) := fit V X W isnan fn h ms n wc t1 t2 in
  meta_same h h' ms /\
  match res with
  | Ok _ => exists t x ier pc,
      (t = t1 \/ (t = t2 /\ snd t1 = LRaise V NotImplementedErr)) /\ snd t = LDone V x ier pc /\
      (1 <= ier <= 4)%Z /\ existsb isnan x = false /\ (wc = true -> pc = true) /\ stored h h' ms x
  | Err FitError => True
  | Err e =>
      (snd t1 = LRaise V NotImplementedErr /\
        (snd t2 = LRaise V e \/ e = ValueError)) \/
      exists t x ier pc,
      (t = t1 \/ (t = t2 /\ snd t1 = LRaise V NotImplementedErr)) /\ snd t = LDone V x ier pc /\
      ((e = ValueError /\ existsb isnan x = true) \/
       (exists p ow ps1, In p ms /\ owner_is h p ow /\ f_norm (fn ow) ps1 = Err e) \/
       (e = TypeError /\ wc = true /\ pc = false))
  end.
Proof.
  intros NK I ND HL H1 H2 [Hpos Hn]. unfold fit.
  assert (EU : unpack V h ms = Ok (concat (map (compress V h) ms))).
  { destruct ms; [unfold PartsProofs.total_free in Hpos; cbn in Hpos; lia|reflexivity]. }
  rewrite EU. rewrite (unpack_concat_len V X W fn h ms I HL).
  destruct (Nat.leb_spec n (total_free h ms)); [lia|].
  destruct (Nat.eqb_spec (total_free h ms) 0); [lia|].
  destruct (run_lsq_frame V X W fn isnan ms (fst t1) h (snd t1) I HL) as (I1 & F1 & S1 & O1).
  destruct (run_lsq V X W isnan fn h ms (fst t1) (snd t1)) as [h1 o1]. cbn [fst snd] in *.
  pose proof (sbp_meta h h1 ms F1 S1) as M1.
  assert (HL1 : forall p, In p ms -> live h1 p).
  { intros p Hp. eapply same_live; [apply S1|auto]. }
  assert (OWN : forall h2 p ow, (forall p, same_but_pars V (look h p) (look h2 p)) ->
     owner_is h2 p ow -> owner_is h p ow).
  { intros h2 p ow S (ps & fl & rm & st & L). specialize (S p). rewrite L in S.
    destruct (look h p) as [[[[[ow' ps'] fl'] rm'] st']|] eqn:L'; cbn in S; [|contradiction].
    destruct S as (-> & -> & -> & -> & _). exists ps', fl', rm', st'. exact L'. }
  (* finishing from a state h2 that differs from h in free parameters only *)
  assert (FIN : forall h2 o2 t, heap_ok h2 -> (forall p, ~ In p ms -> look h2 p = look h p) ->
     (forall p, same_but_pars V (look h p) (look h2 p)) ->
     (o2 = snd t \/ o2 = LRaise V ValueError) -> (t = t1 \/ (t = t2 /\ snd t1 = LRaise V NotImplementedErr)) ->
     (forall e, o2 = LRaise V e -> snd t1 = LRaise V NotImplementedErr /\ t = t2) ->
     let (h', res) := fit_finish V X W isnan fn h2 ms o2 wc in
     meta_same h h' ms /\
     match res with
     | Ok _ => exists t x ier pc,
         (t = t1 \/ (t = t2 /\ snd t1 = LRaise V NotImplementedErr)) /\ snd t = LDone V x ier pc /\
         (1 <= ier <= 4)%Z /\ existsb isnan x = false /\ (wc = true -> pc = true) /\ stored h h' ms x
     | Err FitError => True
     | Err e =>
         (snd t1 = LRaise V NotImplementedErr /\
           (snd t2 = LRaise V e \/ e = ValueError)) \/
         exists t x ier pc,
         (t = t1 \/ (t = t2 /\ snd t1 = LRaise V NotImplementedErr)) /\ snd t = LDone V x ier pc /\
         ((e = ValueError /\ existsb isnan x = true) \/
          (exists p ow ps1, In p ms /\ owner_is h p ow /\ f_norm (fn ow) ps1 = Err e) \/
          (e = TypeError /\ wc = true /\ pc = false))
     end).
  { intros h2 o2 t I2 F2 S2 Ho Ht HR.
    assert (HLi : forall p, In p ms -> live h2 p).
    { intros p Hp. eapply same_live; [apply S2|auto]. }
    assert (HX : forall x ier pc, o2 = LDone V x ier pc -> length x = total_free h2 ms).
    { intros x ier pc E. rewrite (sbp_total h h2 ms S2). destruct Ho as [Ho|Ho]; [|congruence].
      destruct Ht as [->|[-> _]]; [eapply H1|eapply H2]; rewrite <- Ho; exact E. }
    pose proof (fit_finish_ok h2 ms o2 wc NK I2 ND HLi HX) as FF.
    destruct (fit_finish V X W isnan fn h2 ms o2 wc) as [h' res]. destruct FF as [M FF].
    split; [exact (meta_trans _ _ _ _ (sbp_meta h h2 ms F2 S2) M)|].
    destruct res as [[]|e].
    - destruct FF as (x & ier & pc & E & Hi & Hn2 & Hw & Hs). destruct Ho as [Ho|Ho]; [|congruence].
      exists t, x, ier, pc. split; [exact Ht|]. split; [congruence|]. split; [exact Hi|]. split; [exact Hn2|].
      split; [exact Hw|]. eapply stored_before; eauto.
    - assert (G : e <> FitError -> (snd t1 = LRaise V NotImplementedErr /\
           (snd t2 = LRaise V e \/ e = ValueError)) \/
         exists t x ier pc,
         (t = t1 \/ (t = t2 /\ snd t1 = LRaise V NotImplementedErr)) /\ snd t = LDone V x ier pc /\
         ((e = ValueError /\ existsb isnan x = true) \/
          (exists p ow ps1, In p ms /\ owner_is h p ow /\ f_norm (fn ow) ps1 = Err e) \/
          (e = TypeError /\ wc = true /\ pc = false))).
      { intros Hne. destruct FF as [FF|(x & ier & pc & E & FF)].
        - left. destruct (HR e FF) as [Q ->]. split; [exact Q|]. destruct Ho as [Ho|Ho]; [left; congruence|right; congruence].
        - right. destruct Ho as [Ho|Ho]; [|congruence]. exists t, x, ier, pc. split; [exact Ht|]. split; [congruence|].
          destruct FF as [(Q1 & Q2 & _)|[(Q1 & _)|[(_ & p & ow & ps1 & Q1 & Q2 & Q3)|(Q1 & _ & Q2 & Q3)]]].
          + left; auto.
          + contradiction.
          + right; left. exists p, ow, ps1. eauto.
          + right; right; auto. }
      destruct e; try (apply G; discriminate). exact Logic.I. }
  assert (M0 : meta_same h h1 ms /\ True) by auto.
  destruct o1 as [x ier pc|e].
  - apply (FIN h1 (LDone V x ier pc) t1); auto; discriminate.
  - destruct e; try exact M0.
    assert (E1 : snd t1 = LRaise V NotImplementedErr) by (destruct O1 as [<-|O1]; [reflexivity|discriminate]).
    destruct (run_lsq_frame V X W fn isnan ms (fst t2) h1 (snd t2) I1 HL1) as (I2 & F2 & S2 & O2).
    destruct (run_lsq V X W isnan fn h1 ms (fst t2) (snd t2)) as [h2 o2]. cbn [fst snd] in *.
    apply (FIN h2 o2 t2); auto.
    + intros p Hp. rewrite F2, F1; auto.
    + intros p. eapply same_but_pars_trans; eauto.
Qed.
End F.

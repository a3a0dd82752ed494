(** Property C207: equality of parts and of models (modelparts.py:754-768; ModelParts inherits
    the equality of lists). *)
From Verif Require Import Prelude Parts PartsProofs PartsFit PartsProps.

(** list.__eq__ on lists of parts: elements are compared by identity first, then with == *)
Definition parts_eq {V} (veq : V -> V -> bool) (h : heap V) (ms ns : list loc) : bool :=
  (length ms =? length ns) && forallb (fun pq => (fst pq =? snd pq) || part_eq V veq h (fst pq) (snd pq)) (combine ms ns).

Section Equality.
Variables V X W : Type.
Variable isnan : V -> bool.
Variable wzero : W.
Variable wadd : W -> W -> W.
Variable fn : nat -> func V X W.
Hypothesis NK : norm_keeps_length V X W fn.
(** == of two numbers: the same number, and no NaN *)
Variable veq : V -> V -> bool.
Hypothesis VEQ : forall a b, veq a b = true <-> a = b /\ isnan a = false.

Definition no_nan (ps : list V) : Prop := forall a, In a ps -> isnan a = false.

Lemma all_eq_spec (a b : list V) : length a = length b -> (all_eq veq a b = true <-> a = b /\ no_nan a).
Proof.
  revert b. induction a as [|x a IH]; intros [|y b] L; try discriminate; cbn [all_eq].
  - split; [|reflexivity]. intros _. split; [reflexivity|]. intros z [].
  - injection L as L. rewrite andb_true_iff, VEQ, (IH b L). split.
    + intros ((-> & N) & -> & NN). split; [reflexivity|]. intros z [<-|H]; auto.
    + intros (E & NN). injection E as -> ->. repeat split; try apply NN; cbn; auto. intros z H. apply NN. now right.
Qed.
Lemma flags_eq_spec (a b : list bool) : length a = length b -> (all_eq Bool.eqb a b = true <-> a = b).
Proof.
  revert b. induction a as [|x a IH]; intros [|y b] L; try discriminate; cbn [all_eq]; [tauto|].
  injection L as L. rewrite andb_true_iff, (IH b L), Bool.eqb_true_iff. split; [intros (-> & ->); reflexivity|intros E; injection E; auto].
Qed.

(** Two parts are equal exactly if they have the same owner and the same parameters, none of
    them NaN, the same parameters are free and both or none may be removed; [static_owner]
    does not count. *)
Theorem C207_equal_parts :
  forall h p q, reachable fn h ->
    (part_eq V veq h p q = true <->
     exists ow ps fl rm st st', look V h p = Some (ow, ps, fl, rm, st) /\ look V h q = Some (ow, ps, fl, rm, st') /\ no_nan ps).
Proof.
  intros h p q R. pose proof (reachable_ok fn h NK R) as I. unfold part_eq, look.
  destruct (objs V h p) as [a|] eqn:A; [|split; [discriminate|intros (?&?&?&?&?&?&E&_); discriminate]].
  destruct (objs V h q) as [b|] eqn:B; [|split; [discriminate|intros (?&?&?&?&?&?&_&E&_); discriminate]].
  destruct (ok_len V X W fn h I _ _ A) as [A1 A2], (ok_len V X W fn h I _ _ B) as [B1 B2].
  destruct (Nat.eqb_spec (owner a) (owner b)) as [O|O]; cbn [andb].
  - rewrite <- O in B1, B2. rewrite !andb_true_iff, (all_eq_spec _ _ (eq_trans A1 (eq_sym B1))), (flags_eq_spec _ _ (eq_trans A2 (eq_sym B2))), Bool.eqb_true_iff. split.
    + intros (((E1 & N) & E2) & E3). do 6 eexists. split; [reflexivity|]. split; [|exact N]. now rewrite O, E1, E2, E3.
    + intros (ow & ps & fl & rm & st & st' & E & F & N). injection E as <- <- <- <- <-. injection F as _ F1 F2 F3 _. auto.
  - split; [discriminate|]. intros (ow & ps & fl & rm & st & st' & E & F & N). injection E as <- _ _ _ _. injection F as F _ _ _ _. congruence.
Qed.

(** It is symmetric and transitive, and reflexive for parts without NaN. *)
Theorem C207_equivalence :
  forall h, reachable fn h ->
    (forall p q, part_eq V veq h p q = part_eq V veq h q p) /\
    (forall p q r, part_eq V veq h p q = true -> part_eq V veq h q r = true -> part_eq V veq h p r = true) /\
    (forall p ow ps fl rm st, look V h p = Some (ow, ps, fl, rm, st) -> (part_eq V veq h p p = true <-> no_nan ps)).
Proof.
  intros h R.
  assert (SYM : forall p q, part_eq V veq h p q = true -> part_eq V veq h q p = true).
  { intros p q H. apply (C207_equal_parts h p q R) in H as (ow & ps & fl & rm & st & st' & E & F & N).
    apply (C207_equal_parts h q p R). exists ow, ps, fl, rm, st', st. auto. }
  split; [|split].
  - intros p q. destruct (part_eq V veq h p q) eqn:E, (part_eq V veq h q p) eqn:F; try reflexivity.
    + apply SYM in E. congruence. + apply SYM in F. congruence.
  - intros p q r H K. apply (C207_equal_parts h p q R) in H as (ow & ps & fl & rm & st & st' & E & F & N).
    apply (C207_equal_parts h q r R) in K as (ow2 & ps2 & fl2 & rm2 & st2 & st2' & E2 & F2 & N2).
    rewrite F in E2. injection E2 as <- <- <- <- <-. apply (C207_equal_parts h p r R). exists ow, ps, fl, rm, st, st2'. auto.
  - intros p ow ps fl rm st L. split.
    + intros H. apply (C207_equal_parts h p p R) in H as (ow2 & ps2 & fl2 & rm2 & st2 & st2' & E & _ & N). rewrite L in E. injection E as <- <- <- <- <-. exact N.
    + intros N. apply (C207_equal_parts h p p R). exists ow, ps, fl, rm, st, st. auto.
Qed.

Lemma part_value_eq h p q r rng : reachable fn h -> part_eq V veq h p q = true ->
  pvalue V X W wzero fn h p r rng = pvalue V X W wzero fn h q r rng.
Proof.
  intros R H. apply (C207_equal_parts h p q R) in H as (ow & ps & fl & rm & st & st' & E & F & N).
  unfold pvalue, fvalue. unfold look in E, F. destruct (objs V h p) as [a|] eqn:A; [|discriminate]. destruct (objs V h q) as [b|] eqn:B; [|discriminate].
  injection E as E1 E2 _ _ _. injection F as F1 F2 _ _ _. rewrite ?A, ?B, E1, F1, E2, F2, Nat.eqb_refl. reflexivity.
Qed.

(** Equal parts, and models of pairwise equal parts, have equal values on every grid and the
    same numbers of parameters. *)
Theorem C207_equal_models_agree :
  forall h ms ns, reachable fn h -> parts_eq veq h ms ns = true ->
    length ms = length ns /\
    (forall r rng, mvalue V X W wzero wadd fn h ms r rng = mvalue V X W wzero wadd fn h ns r rng) /\
    (forall cf, m_npars V X W fn h cf ms = m_npars V X W fn h cf ns) /\
    (forall v, unpack V h ms = Ok v -> unpack V h ns = Ok v).
Proof.
  intros h ms ns R H. unfold parts_eq in H. apply andb_prop in H as [L H]. apply Nat.eqb_eq in L. split; [exact L|].
  rewrite forallb_forall in H.
  assert (AG : forall p q, In (p, q) (combine ms ns) -> p = q \/ part_eq V veq h p q = true).
  { intros p q I. specialize (H _ I). cbn [fst snd] in H. apply orb_prop in H as [H|H]; [left; now apply Nat.eqb_eq|now right]. }
  clear H. split; [|split].
  - intros r rng. unfold mvalue. generalize (repeat wzero (length r)). revert ns L AG.
    induction ms as [|p ms IH]; intros [|q ns] L AG acc; try discriminate; [reflexivity|]. cbn [value_loop].
    assert (E : pvalue V X W wzero fn h p r rng = pvalue V X W wzero fn h q r rng).
    { destruct (AG p q) as [->|K]; [now left|reflexivity|]. now apply part_value_eq. }
    rewrite E. destruct (pvalue V X W wzero fn h q r rng); cbn [bind]; [|reflexivity]. apply IH; [now injection L|]. intros p' q' I. apply AG. now right.
  - intros cf. unfold m_npars. generalize 0. revert ns L AG.
    induction ms as [|p ms IH]; intros [|q ns] L AG acc; try discriminate; [reflexivity|]. cbn [fold_left].
    assert (E : npars V X W fn h cf p = npars V X W fn h cf q).
    { destruct (AG p q) as [->|K]; [now left|reflexivity|]. apply (C207_equal_parts h p q R) in K as (ow & ps & fl & rm & st & st' & E & F & N).
      unfold npars. unfold look in E, F. destruct (objs V h p) as [a|] eqn:A; [|discriminate]. destruct (objs V h q) as [b|] eqn:B; [|discriminate].
      injection E as E1 _ E3 _ _. injection F as F1 _ F3 _ _. rewrite E1, F1, E3, F3. reflexivity. }
    rewrite E. apply IH; [now injection L|]. intros p' q' I. apply AG. now right.
  - intros v HU. assert (CE : map (compress V h) ms = map (compress V h) ns).
    { clear HU. revert ns L AG. induction ms as [|p ms IH]; intros [|q ns] L AG; try discriminate; [reflexivity|]. cbn [map]. f_equal.
      - destruct (AG p q) as [->|K]; [now left|reflexivity|]. apply (C207_equal_parts h p q R) in K as (ow & ps & fl & rm & st & st' & E & F & N).
        unfold compress. unfold look in E, F. destruct (objs V h p) as [a|] eqn:A; [|discriminate]. destruct (objs V h q) as [b|] eqn:B; [|discriminate].
        injection E as _ E2 E3 _ _. injection F as _ F2 F3 _ _. rewrite E2, F2, E3, F3. reflexivity.
      - apply IH; [now injection L|]. intros p' q' I. apply AG. now right. }
    destruct ms, ns; try discriminate. unfold unpack in *. now rewrite <- CE.
Qed.

Lemma copy_parts_reach : forall ms h h' r, copy_parts V X W fn h ms = (h', r) -> reachable fn h -> reachable fn h'.
Proof.
  induction ms as [|p ms IH]; intros h h' r E R; cbn [copy_parts] in E; [now injection E as <- _|].
  destruct (copy_part V X W fn h p) as [h1 [q|e]] eqn:C.
  - assert (R1 : reachable fn h1).
    { destruct R as [ops ->]. exists (ops ++ [OCopy V p]). unfold exec_all in *. rewrite fold_left_app. cbn [fold_left exec]. now rewrite C. }
    destruct (copy_parts V X W fn h1 ms) as [h2 [qs|e]] eqn:D; injection E as <- _; exact (IH _ _ _ D R1).
  - injection E as <- _. destruct R as [ops ->]. exists (ops ++ [OCopy V p]). unfold exec_all in *. rewrite fold_left_app. cbn [fold_left exec]. now rewrite C.
Qed.

(** A copied model compares equal to the original, as long as there is no NaN. *)
Theorem C207_copies_are_equal :
  forall h ms, reachable fn h -> model h ms ->
    (forall p ow ps fl rm st, In p ms -> look V h p = Some (ow, ps, fl, rm, st) -> no_nan ps) ->
    exists h' qs, copy_parts V X W fn h ms = (h', Ok qs) /\ parts_eq veq h' ms qs = true /\ parts_eq veq h' qs ms = true.
Proof.
  intros h ms R M NN. destruct (C15_copy_equal_and_independent V X W fn NK h ms R M) as (h' & qs & E & M1 & L1 & _ & C1 & _).
  pose proof (copy_parts_reach _ _ _ _ E R) as R'. exists h', qs. split; [exact E|].
  assert (NTH : forall i p q, nth_error ms i = Some p -> nth_error qs i = Some q -> part_eq V veq h' p q = true).
  { intros i p q P1 Q1. destruct (C1 i p q P1 Q1) as [H1 H2]. destruct (proj2 M p (nth_error_In _ _ P1)) as ([[[[ow ps] fl] rm] st] & L).
    apply (C207_equal_parts h' p q R'). exists ow, ps, fl, rm, st, st. rewrite H1, H2. repeat split; auto. apply (NN p ow ps fl rm st (nth_error_In _ _ P1) L). }
  assert (ONE : forall a b, (forall i p q, nth_error a i = Some p -> nth_error b i = Some q -> part_eq V veq h' p q = true) -> length a = length b -> parts_eq veq h' a b = true).
  { clear. intros a b H L. unfold parts_eq. rewrite L, Nat.eqb_refl. cbn [andb]. revert b H L.
    induction a as [|p a IH]; intros [|q b] H L; try discriminate; [reflexivity|]. cbn [combine forallb fst snd].
    rewrite (H 0 p q eq_refl eq_refl), orb_true_r. cbn [andb]. apply IH; [|now injection L]. intros i p' q' P1 Q1. exact (H (S i) p' q' P1 Q1). }
  split; apply ONE; auto. intros i p q P1 Q1. rewrite (proj1 (C207_equivalence h' R')). eapply NTH; eauto.
Qed.
End Equality.

(** ** What does not hold *)
Definition ex_veq (a b : option Z) : bool := match a, b with Some x, Some y => Z.eqb x y | _, _ => false end.
Lemma ex_veq_ok : forall a b, ex_veq a b = true <-> a = b /\ ex_nan a = false.
Proof.
  intros [x|] [y|]; cbn; try (split; [discriminate|intros [? ?]; discriminate]).
  rewrite Z.eqb_eq. split; [intros ->; auto|intros [E _]; now injection E].
Qed.
(** one part with NaN; two parts that differ in static_owner only *)
Definition ex_h2 : heap (option Z) := exec_all _ _ _ ex_fn (empty_heap _)
  [ONew _ 1 [None]%Z None true false; ONew _ 1 [Some 7]%Z None true false; ONew _ 1 [Some 7]%Z None true true].
Lemma ex_reachable2 : reachable ex_fn ex_h2. Proof. eexists; reflexivity. Qed.

(** A part with a NaN is not equal to itself (nor to its copies). *)
Theorem C207_reflexive_refuted :
  exists h p c, reachable ex_fn h /\ look _ h p = Some c /\ part_eq _ ex_veq h p p = false.
Proof. exists ex_h2, 2. eexists. split; [exact ex_reachable2|]. split; [vm_compute; reflexivity|reflexivity]. Qed.

(** Equal parts do not behave in the same way: the owner of one can be replaced, that of the
    other cannot. *)
Theorem C207_interchangeable_refuted :
  exists h p q ow, reachable ex_fn h /\ part_eq _ ex_veq h p q = true /\
    snd (changeowner _ _ _ ex_fn h p ow) = Ok tt /\ snd (changeowner _ _ _ ex_fn h q ow) <> Ok tt.
Proof. exists ex_h2, 5, 8, 2. split; [exact ex_reachable2|]. vm_compute. repeat split; discriminate. Qed.

Example C207_nonvacuous :
  reachable ex_fn ex_h2 /\ norm_keeps_length _ _ _ ex_fn /\ (forall a b, ex_veq a b = true <-> a = b /\ ex_nan a = false) /\
  part_eq _ ex_veq ex_h2 5 8 = true /\ parts_eq ex_veq ex_h2 [5; 2] [8; 2] = true /\ parts_eq ex_veq ex_h2 [5; 8] [8; 2] = false.
Proof. split; [exact ex_reachable2|]. split; [exact ex_norm|]. split; [exact ex_veq_ok|]. vm_compute. auto. Qed.

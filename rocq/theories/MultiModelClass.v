(** classify: the loop invariant. *)
From Coq Require Import Reals Lra Sorted Permutation.
From Verif Require Import Prelude Evaluators EvaluatorsProps MultiModel MultiModelProofs.
Open Scope R_scope.

Lemma F2_length {A B} (Q : A -> B -> Prop) l l' : Forall2 Q l l' -> length l = length l'.
Proof. induction 1; cbn; auto. Qed.

(** *** Specification: when two models count as the same *)
(** Total squared value of a peak or baseline on the grid r. *)
Definition energy (r : list R) (p : part) : R := Rsum (map (fun v => v * v) (pvalue p r)).
Definition close (tol a b : R) : Prop := Rabs (a - b) <= tol * a /\ Rabs (a - b) <= tol * b.
Definition same_part (tol : R) (r : list R) (p q : part) : Prop :=
  ptype p = ptype q /\ pnpars p = pnpars q /\ close tol (energy r p) (energy r q).
(** Same number of peaks, and corresponding peaks and the baselines match. *)
Definition alike (tol : R) (r : list R) (m m' : model) : Prop :=
  Forall2 (same_part tol r) (m_peaks m) (m_peaks m') /\ same_part tol r (m_base m) (m_base m').
(** Values have one entry per grid point. *)
Definition on_grid (r : list R) (m : model) : Prop :=
  length (pvalue (m_base m) r) = length r /\ forall p, In p (m_peaks m) -> length (pvalue p r) = length r.

Lemma close_sym tol a b : close tol a b -> close tol b a.
Proof. unfold close. rewrite (Rabs_minus_sym b a). tauto. Qed.
Lemma same_part_sym tol r p q : same_part tol r p q -> same_part tol r q p.
Proof. intros (A & B & C). split; [auto|]. split; [auto|]. now apply close_sym. Qed.
Lemma alike_sym tol r m m' : alike tol r m m' -> alike tol r m' m.
Proof.
  intros [A B]. split; [|now apply same_part_sym]. induction A; constructor; auto. now apply same_part_sym.
Qed.
Lemma energy_nonneg r p : 0 <= energy r p.
Proof. unfold energy, Rsum. induction (pvalue p r) as [|v l IH]; cbn [map fold_right]; [lra|]. pose proof (Rle_0_sqr v). unfold Rsqr in *. lra. Qed.
Lemma alike_refl tol r m : 0 <= tol -> alike tol r m m.
Proof.
  intros H. assert (S : forall p, same_part tol r p p).
  { intros p. split; [auto|]. split; [auto|]. unfold close. rewrite Rminus_diag_eq, Rabs_R0 by reflexivity. pose proof (energy_nonneg r p).
    assert (0 <= tol * energy r p) by (apply Rmult_le_pos; assumption). auto. }
  split; [|apply S]. induction (m_peaks m); constructor; auto.
Qed.

(** *** The tests of the code decide [alike] *)
Lemma rsum_square r p : Rsum (square (pvalue p r)) = energy r p.
Proof. unfold energy, square. f_equal. apply map_ext. intros v. ring. Qed.
Lemma rsum_minus a : forall b, length a = length b -> Rsum (minus a b) = Rsum a - Rsum b.
Proof.
  unfold Rsum. induction a as [|x a IH]; intros [|y b] H; try discriminate; cbn [minus fold_right]; [ring|]. injection H as H. rewrite IH by exact H. ring.
Qed.
Lemma differs_spec tol r p q : length (pvalue p r) = length r -> length (pvalue q r) = length r ->
  differs tol (square (pvalue p r)) (square (pvalue q r)) = true <-> ~ close tol (energy r p) (energy r q).
Proof.
  intros Hp Hq. unfold differs. rewrite rsum_minus by (unfold square; rewrite !map_length; congruence). rewrite !rsum_square. unfold close.
  rewrite orb_true_iff, !Rltb_spec. split.
  - intros H G. lra.
  - intros H. destruct (Rlt_dec (tol * energy r q) (Rabs (energy r p - energy r q))); [now left|]. right.
    apply Rnot_le_lt. intros G. apply H. split; [exact G|lra].
Qed.
Lemma part_differs_spec p q : part_differs p q = false <-> ptype p = ptype q /\ pnpars p = pnpars q.
Proof. unfold part_differs. rewrite orb_false_iff, !negb_false_iff, !Nat.eqb_eq. tauto. Qed.
Lemma fits_spec ms r tol m ex c i0 rest : members c = i0 :: rest -> nth_error ms i0 = Some ex ->
  epsq c = map (fun p => square (pvalue p r)) (m_peaks ex) -> ebsq c = square (pvalue (m_base ex) r) -> on_grid r m -> on_grid r ex ->
  exists b, fits_class ms tol m (map (fun p => square (pvalue p r)) (m_peaks m)) (square (pvalue (m_base m) r)) c = Ok b /\ (b = true <-> alike tol r m ex).
Proof.
  intros HM HE E1 E2 [G1 G2] [G3 G4]. unfold fits_class. rewrite HM.
  change (pyget (i0 :: rest) 0) with (@Ok nat i0). cbn [bind]. rewrite (pyget_nth _ _ _ HE). cbn [bind]. rewrite E1, E2.
  destruct (part_differs (m_base m) (m_base ex)) eqn:PB.
  { exists false. split; [reflexivity|]. split; [discriminate|]. intros [_ (A & B & _)]. assert (X : part_differs (m_base m) (m_base ex) = false) by (apply part_differs_spec; auto). congruence. }
  apply part_differs_spec in PB.
  destruct (Nat.eqb_spec (length (m_peaks m)) (length (m_peaks ex))) as [LE|LE]; cbn [negb].
  2:{ exists false. split; [reflexivity|]. split; [discriminate|]. intros [A _]. apply F2_length in A. contradiction. }
  assert (Z1 : forall l l' : list part, length l = length l' -> zip_any part_differs l l' = false <-> Forall2 (fun p q => ptype p = ptype q /\ pnpars p = pnpars q) l l').
  { induction l as [|a l IH]; intros [|b l'] H; try discriminate; cbn [zip_any]; [split; [constructor|reflexivity]|]. injection H as H.
    rewrite orb_false_iff, part_differs_spec, IH by exact H. split; [intros [A B]; constructor; auto|]. intros X. inversion X; subst. auto. }
  destruct (zip_any part_differs (m_peaks m) (m_peaks ex)) eqn:ZP.
  { exists false. split; [reflexivity|]. split; [discriminate|]. intros [A _]. assert (X : zip_any part_differs (m_peaks m) (m_peaks ex) = false); [|congruence].
    apply Z1; [exact LE|]. clear - A. induction A as [|? ? ? ? (X & Y & _)]; constructor; auto. }
  apply (Z1 _ _ LE) in ZP.
  assert (Z2 : zip_any (differs tol) (map (fun p => square (pvalue p r)) (m_peaks m)) (map (fun p => square (pvalue p r)) (m_peaks ex)) = false <->
     Forall2 (fun p q => close tol (energy r p) (energy r q)) (m_peaks m) (m_peaks ex)).
  { clear ZP Z1 HE PB E1 E2. revert G2 G4 LE. generalize (m_peaks m) (m_peaks ex). induction l as [|a l IH]; intros [|b l'] H1 H2 LE; try discriminate; cbn [map zip_any]; [split; [constructor|reflexivity]|].
    injection LE as LE. pose proof (differs_spec tol r a b (H1 a (or_introl eq_refl)) (H2 b (or_introl eq_refl))) as D.
    rewrite orb_false_iff, IH; [|intros; apply H1; now right|intros; apply H2; now right|exact LE].
    assert (DC : differs tol (square (pvalue a r)) (square (pvalue b r)) = false <-> close tol (energy r a) (energy r b)).
    { destruct (differs _ _ _).
      - split; [discriminate|]. intros C. exfalso. apply D; auto.
      - split; [|reflexivity]. intros _. unfold close in *. destruct (Rle_dec (Rabs (energy r a - energy r b)) (tol * energy r a)), (Rle_dec (Rabs (energy r a - energy r b)) (tol * energy r b)); auto; exfalso; (assert (X : false = true) by (apply D; tauto)); discriminate. }
    rewrite DC. split; [intros [A B]; constructor; auto|]. intros X. inversion X; subst. auto. }
  destruct (zip_any (differs tol) _ _) eqn:ZV.
  { exists false. split; [reflexivity|]. split; [discriminate|]. intros [A _]. assert (X : true = false); [|discriminate]. apply Z2. clear - A. induction A as [|? ? ? ? (_ & _ & X)]; constructor; auto. }
  assert (ZV' := proj1 Z2 eq_refl).
  pose proof (differs_spec tol r (m_base m) (m_base ex) G1 G3) as D.
  destruct (differs tol (square (pvalue (m_base m) r)) (square (pvalue (m_base ex) r))) eqn:DB.
  { exists false. split; [reflexivity|]. split; [discriminate|]. intros [_ (_ & _ & C)]. exfalso. now apply D. }
  exists true. split; [reflexivity|]. split; [|reflexivity]. intros _. split.
  - clear - ZP ZV'. induction ZP as [|p q l l' [A B] _ IH]; inversion ZV'; subst; constructor; [split; auto|auto].
  - destruct PB as [A B]. split; [exact A|]. split; [exact B|]. unfold close in *.
    destruct (Rle_dec (Rabs (energy r (m_base m) - energy r (m_base ex))) (tol * energy r (m_base m))), (Rle_dec (Rabs (energy r (m_base m) - energy r (m_base ex))) (tol * energy r (m_base ex))); auto; exfalso; (assert (X : false = true) by (apply D; tauto)); discriminate.
Qed.

(** *** The invariant *)
Record inv (ms : list model) (r : list R) (tol : R) (i : nat) (cs : list cls) (idx : nat -> option nat) : Prop := {
  inv_perm : Permutation (concat (map members cs)) (seq 0 i);
  inv_sorted : forall k c, nth_error cs k = Some c -> StronglySorted lt (members c);
  inv_ex : forall k c, nth_error cs k = Some c -> exists i0 rest ex, members c = i0 :: rest /\ nth_error ms i0 = Some ex /\
     epsq c = map (fun p => square (pvalue p r)) (m_peaks ex) /\ ebsq c = square (pvalue (m_base ex) r);
  inv_alike : forall k c i0 rest ex j m, nth_error cs k = Some c -> members c = i0 :: rest -> nth_error ms i0 = Some ex ->
     In j rest -> nth_error ms j = Some m -> alike tol r m ex;
  inv_unlike : forall k c k' c' i0 rest ex j m, nth_error cs k = Some c -> nth_error cs k' = Some c' -> (k' < k)%nat ->
     members c' = i0 :: rest -> nth_error ms i0 = Some ex -> In j (members c) -> nth_error ms j = Some m -> ~ alike tol r m ex;
  inv_idx : forall j k, idx j = Some k <-> exists c, nth_error cs k = Some c /\ In j (members c) }.

Lemma nth_upd_same {A} (l : list A) : forall k a b, nth_error l k = Some a -> nth_error (upd l k b) k = Some b.
Proof. induction l as [|c l IH]; intros [|k] a b H; try discriminate; [reflexivity|]. cbn in *. eauto. Qed.
Lemma nth_upd_other {A} (l : list A) : forall k k' b, k' <> k -> nth_error (upd l k b) k' = nth_error l k'.
Proof. induction l as [|c l IH]; intros [|k] [|k'] b H; cbn; try reflexivity; [contradiction|apply IH; congruence]. Qed.
Lemma upd_length {A} (l : list A) : forall k b, length (upd l k b) = length l.
Proof. induction l as [|c l IH]; intros [|k] b; cbn; auto. Qed.

Lemma place_spec ms r tol i m : on_grid r m -> (forall j x, nth_error ms j = Some x -> on_grid r x) ->
  forall cs c, (forall k x, nth_error cs k = Some x -> exists i0 rest ex, members x = i0 :: rest /\ nth_error ms i0 = Some ex /\
     epsq x = map (fun p => square (pvalue p r)) (m_peaks ex) /\ ebsq x = square (pvalue (m_base ex) r)) ->
  exists res, place ms tol i m (map (fun p => square (pvalue p r)) (m_peaks m)) (square (pvalue (m_base m) r)) cs c = Ok res /\
   ((exists k x i0 rest ex, snd res = Some (c + k)%nat /\ nth_error cs k = Some x /\ fst res = upd cs k (mkCls (members x ++ [i]) (epsq x) (ebsq x)) /\
       members x = i0 :: rest /\ nth_error ms i0 = Some ex /\ alike tol r m ex /\
       (forall k' x' i1 rest' ex', (k' < k)%nat -> nth_error cs k' = Some x' -> members x' = i1 :: rest' -> nth_error ms i1 = Some ex' -> ~ alike tol r m ex')) \/
    (snd res = None /\ fst res = cs /\
       (forall k' x' i1 rest' ex', nth_error cs k' = Some x' -> members x' = i1 :: rest' -> nth_error ms i1 = Some ex' -> ~ alike tol r m ex'))).
Proof.
  intros GM GMS. induction cs as [|x cs IH]; intros c HC; cbn [place].
  - exists ([], None). split; [reflexivity|]. right. split; [reflexivity|]. split; [reflexivity|]. intros [|k'] ? ? ? ? H; discriminate.
  - destruct (HC 0%nat x eq_refl) as (i0 & rest & ex & M1 & M2 & M3 & M4).
    destruct (fits_spec ms r tol m ex x i0 rest M1 M2 M3 M4 GM (GMS _ _ M2)) as (b & -> & B). cbn [bind]. destruct b.
    + eexists. split; [reflexivity|]. left. exists 0%nat, x, i0, rest, ex. split; [cbn [snd]; now rewrite Nat.add_0_r|]. split; [reflexivity|]. split; [reflexivity|].
      split; [exact M1|]. split; [exact M2|]. split; [now apply B|]. intros. lia.
    + assert (NB : ~ alike tol r m ex) by (intros A; apply B in A; discriminate).
      destruct (IH (S c)) as (res & -> & D). { intros k y Hk. exact (HC (S k) y Hk). } cbn [bind]. eexists. split; [reflexivity|]. cbn [fst snd].
      destruct D as [(k & y & j0 & rest' & ex' & D1 & D2 & D3 & D4 & D5 & D6 & D7)|(D1 & D2 & D3)].
      * left. exists (S k), y, j0, rest', ex'. split; [rewrite D1; f_equal; lia|]. split; [exact D2|]. split; [cbn [upd]; now rewrite D3|]. split; [exact D4|]. split; [exact D5|]. split; [exact D6|].
        intros [|k'] x' i1 r1 ex1 HL HX HM HE; [|eapply D7; [|exact HX|exact HM|exact HE]; lia]. injection HX as <-. rewrite M1 in HM. injection HM as <- <-. rewrite M2 in HE. injection HE as <-. exact NB.
      * right. split; [exact D1|]. split; [now rewrite D2|]. intros [|k'] x' i1 r1 ex1 HX HM HE; [|eapply D3; eauto].
        injection HX as <-. rewrite M1 in HM. injection HM as <- <-. rewrite M2 in HE. injection HE as <-. exact NB.
Qed.

Lemma concat_upd cs i : forall k x, nth_error cs k = Some x ->
  Permutation (concat (map members (upd cs k (mkCls (members x ++ [i]) (epsq x) (ebsq x))))) (concat (map members cs) ++ [i]).
Proof.
  induction cs as [|y cs IH]; intros [|k] x H; try discriminate; cbn [upd map concat members nth_error] in *.
  - injection H as <-. rewrite <- !app_assoc. apply Permutation_app_head. apply Permutation_app_comm.
  - rewrite <- app_assoc. apply Permutation_app_head. now apply IH.
Qed.
Lemma ss_snoc l i : StronglySorted lt l -> (forall j, In j l -> (j < i)%nat) -> StronglySorted lt (l ++ [i]).
Proof.
  induction 1 as [|a l HS IH HF]; intros H; cbn [app]; [repeat constructor|]. constructor; [apply IH; intros; apply H; now right|].
  rewrite Forall_forall in *. intros j Hj. apply in_app_or in Hj as [Hj|[<-|[]]]; [auto|apply H; now left].
Qed.

Lemma inv_lt ms r tol i cs idx k c j : inv ms r tol i cs idx -> nth_error cs k = Some c -> In j (members c) -> (j < i)%nat.
Proof.
  intros H HK HJ. assert (I : In j (concat (map members cs))) by (apply in_concat; exists (members c); split; [apply in_map; eapply nth_error_In; exact HK|exact HJ]).
  apply (Permutation_in _ (inv_perm _ _ _ _ _ _ H)), in_seq in I. lia.
Qed.

Lemma step_join ms r tol i cs idx m k x i0 rest ex : inv ms r tol i cs idx -> nth_error ms i = Some m ->
  nth_error cs k = Some x -> members x = i0 :: rest -> nth_error ms i0 = Some ex -> alike tol r m ex ->
  (forall k' x' i1 rest' ex', (k' < k)%nat -> nth_error cs k' = Some x' -> members x' = i1 :: rest' -> nth_error ms i1 = Some ex' -> ~ alike tol r m ex') ->
  inv ms r tol (S i) (upd cs k (mkCls (members x ++ [i]) (epsq x) (ebsq x))) (iset idx i k).
Proof.
  intros H HM HK HX HE HA HU. set (y := mkCls (members x ++ [i]) (epsq x) (ebsq x)).
  assert (AT : forall k' c, nth_error (upd cs k y) k' = Some c -> (k' = k /\ c = y) \/ (k' <> k /\ nth_error cs k' = Some c)).
  { intros k' c Hk'. destruct (Nat.eq_dec k' k) as [->|N].
    - left. split; [reflexivity|]. rewrite (nth_upd_same cs k x y HK) in Hk'. congruence.
    - right. rewrite nth_upd_other in Hk' by exact N. auto. }
  assert (HD : forall a q l, members x ++ [a] = q :: l -> q = i0 /\ l = rest ++ [a]).
  { intros a q l. rewrite HX. cbn [app]. intros [= <- <-]. auto. }
  constructor.
  - unfold y. rewrite (concat_upd cs i k x HK), (inv_perm _ _ _ _ _ _ H), seq_S. reflexivity.
  - intros k' c Hk'. apply AT in Hk' as [(-> & ->)|(N & Hk')]; [|eapply inv_sorted; eauto]. cbn [y members]. apply ss_snoc; [eapply inv_sorted; eauto|].
    intros j Hj. eapply inv_lt; eauto.
  - intros k' c Hk'. apply AT in Hk' as [(-> & ->)|(N & Hk')]; [|eapply inv_ex; eauto].
    destruct (inv_ex _ _ _ _ _ _ H k x HK) as (j0 & r0 & e0 & A1 & A2 & A3 & A4). exists j0, (r0 ++ [i]), e0. cbn [y members epsq ebsq]. rewrite A1. auto.
  - intros k' c j0 rest' ex' j mj Hk' M1 M2 Hj Mj. apply AT in Hk' as [(-> & ->)|(N & Hk')].
    + cbn [y members] in M1. apply HD in M1 as [-> ->]. rewrite HE in M2. injection M2 as <-. apply in_app_or in Hj as [Hj|[<-|[]]].
      * eapply inv_alike; eauto.
      * rewrite HM in Mj. injection Mj as <-. exact HA.
    + eapply inv_alike; eauto.
  - intros k1 c1 k2 c2 j0 rest' ex' j mj Hk1 Hk2 HL M1 M2 Hj Mj.
    assert (HC2 : exists c2' rest2, nth_error cs k2 = Some c2' /\ members c2' = j0 :: rest2).
    { apply AT in Hk2 as [(-> & ->)|(N & Hk2)]; [|exists c2, rest'; auto]. cbn [y members] in M1. apply HD in M1 as [-> ->]. exists x, rest. auto. }
    destruct HC2 as (c2' & rest2 & D1 & D2). apply AT in Hk1 as [(-> & ->)|(N & Hk1)].
    + cbn [y members] in Hj. apply in_app_or in Hj as [Hj|[<-|[]]].
      * eapply (inv_unlike _ _ _ _ _ _ H k x k2 c2'); eauto.
      * rewrite HM in Mj. injection Mj as <-. eapply HU; eauto.
    + eapply (inv_unlike _ _ _ _ _ _ H k1 c1 k2 c2'); eauto.
  - intros j k'. unfold iset. destruct (Nat.eqb_spec j i) as [->|N].
    + split.
      * intros [= <-]. exists y. split; [eapply nth_upd_same; exact HK|]. cbn [y members]. apply in_or_app. right. now left.
      * intros (c & Hc & Hi). apply AT in Hc as [(-> & _)|(_ & Hc)]; [reflexivity|]. exfalso. pose proof (inv_lt _ _ _ _ _ _ _ _ _ H Hc Hi). lia.
    + rewrite (inv_idx _ _ _ _ _ _ H). split.
      * intros (c & Hc & Hj). destruct (Nat.eq_dec k' k) as [->|NK].
        -- exists y. split; [eapply nth_upd_same; exact HK|]. cbn [y members]. apply in_or_app. left. congruence.
        -- exists c. split; [rewrite nth_upd_other by exact NK; exact Hc|exact Hj].
      * intros (c & Hc & Hj). apply AT in Hc as [(-> & ->)|(_ & Hc)]; [|eauto]. cbn [y members] in Hj. apply in_app_or in Hj as [Hj|[->|[]]]; [eauto|contradiction].
Qed.
Lemma step_new ms r tol i cs idx m : inv ms r tol i cs idx -> nth_error ms i = Some m ->
  (forall k' x' i1 rest' ex', nth_error cs k' = Some x' -> members x' = i1 :: rest' -> nth_error ms i1 = Some ex' -> ~ alike tol r m ex') ->
  inv ms r tol (S i) (cs ++ [mkCls [i] (map (fun p => square (pvalue p r)) (m_peaks m)) (square (pvalue (m_base m) r))]) (iset idx i (length cs)).
Proof.
  intros H HM HU. set (y := mkCls [i] _ _).
  assert (AT : forall k' c, nth_error (cs ++ [y]) k' = Some c -> (k' = length cs /\ c = y) \/ ((k' < length cs)%nat /\ nth_error cs k' = Some c)).
  { intros k' c Hk'. destruct (Nat.lt_ge_cases k' (length cs)) as [L|G].
    - right. split; [exact L|]. rewrite nth_error_app1 in Hk' by exact L. exact Hk'.
    - left. assert (k' = length cs).
      { assert (k' < length (cs ++ [y]))%nat by (apply nth_error_Some; congruence). rewrite app_length in *. cbn in *. lia. }
      subst k'. rewrite nth_error_app2, Nat.sub_diag in Hk' by lia. cbn in Hk'. split; congruence. }
  constructor.
  - rewrite map_app, concat_app, (inv_perm _ _ _ _ _ _ H), seq_S. cbn. reflexivity.
  - intros k' c Hk'. apply AT in Hk' as [(-> & ->)|(N & Hk')]; [|eapply inv_sorted; eauto]. cbn. repeat constructor.
  - intros k' c Hk'. apply AT in Hk' as [(-> & ->)|(N & Hk')]; [|eapply inv_ex; eauto]. exists i, [], m. cbn. auto.
  - intros k' c j0 rest' ex' j mj Hk' M1 M2 Hj Mj. apply AT in Hk' as [(-> & ->)|(N & Hk')]; [|eapply inv_alike; eauto]. cbn in M1. injection M1 as <- <-. destruct Hj.
  - intros k1 c1 k2 c2 j0 rest' ex' j mj Hk1 Hk2 HL M1 M2 Hj Mj. apply AT in Hk1 as [(-> & ->)|(N & Hk1)].
    + apply AT in Hk2 as [(-> & _)|(_ & Hk2)]; [lia|]. cbn in Hj. destruct Hj as [<-|[]]. rewrite HM in Mj. injection Mj as <-. eapply HU; eauto.
    + apply AT in Hk2 as [(-> & _)|(_ & Hk2)]; [lia|]. eapply (inv_unlike _ _ _ _ _ _ H k1 c1 k2 c2); eauto.
  - intros j k'. unfold iset. destruct (Nat.eqb_spec j i) as [->|N].
    + split.
      * intros [= <-]. exists y. split; [rewrite nth_error_app2, Nat.sub_diag by lia; reflexivity|now left].
      * intros (c & Hc & Hi). apply AT in Hc as [(-> & _)|(_ & Hc)]; [reflexivity|]. exfalso. pose proof (inv_lt _ _ _ _ _ _ _ _ _ H Hc Hi). lia.
    + rewrite (inv_idx _ _ _ _ _ _ H). split.
      * intros (c & Hc & Hj). exists c. split; [rewrite nth_error_app1; [exact Hc|apply nth_error_Some; congruence]|exact Hj].
      * intros (c & Hc & Hj). apply AT in Hc as [(-> & ->)|(_ & Hc)]; [|eauto]. cbn in Hj. destruct Hj as [->|[]]. contradiction.
Qed.

Lemma classify_from_spec ms r tol : (forall j x, nth_error ms j = Some x -> on_grid r x) ->
  forall todo i cs idx, (forall j, nth_error todo j = nth_error ms (i + j)) -> inv ms r tol i cs idx ->
  exists cs' idx', classify_from ms r tol i todo cs idx = Ok (cs', idx') /\ inv ms r tol (i + length todo) cs' idx'.
Proof.
  intros G. induction todo as [|m todo IH]; intros i cs idx HT H; cbn [classify_from].
  - exists cs, idx. split; [reflexivity|]. cbn [length]. rewrite Nat.add_0_r. exact H.
  - assert (HM : nth_error ms i = Some m) by (specialize (HT 0%nat); rewrite Nat.add_0_r in HT; rewrite <- HT; reflexivity).
    assert (HT' : forall j, nth_error todo j = nth_error ms (S i + j)) by (intros j; specialize (HT (S j)); cbn in HT; rewrite HT; f_equal; lia).
    destruct (place_spec ms r tol i m (G _ _ HM) G cs 0 (inv_ex _ _ _ _ _ _ H)) as (res & -> & D). cbn [bind].
    destruct D as [(k & x & i0 & rest & ex & D1 & D2 & D3 & D4 & D5 & D6 & D7)|(D1 & D2 & D3)].
    + rewrite D1, D3. cbn [Nat.add]. destruct (IH (S i) (upd cs k (mkCls (members x ++ [i]) (epsq x) (ebsq x))) (iset idx i k) HT') as (cs' & idx' & E & I').
      * eapply step_join; eauto.
      * exists cs', idx'. split; [exact E|]. cbn [length]. replace (i + S (length todo))%nat with (S i + length todo)%nat by lia. exact I'.
    + rewrite D1, D2. destruct (IH (S i) (cs ++ [mkCls [i] (map (fun p => square (pvalue p r)) (m_peaks m)) (square (pvalue (m_base m) r))]) (iset idx i (length cs)) HT') as (cs' & idx' & E & I').
      * apply step_new; auto.
      * exists cs', idx'. split; [exact E|]. cbn [length]. replace (i + S (length todo))%nat with (S i + length todo)%nat by lia. exact I'.
Qed.
Lemma inv_empty ms r tol : inv ms r tol 0 [] (fun _ => None).
Proof.
  constructor; try (intros [|k]; intros; discriminate); [constructor|]. intros j k. split; [discriminate|]. intros (c & Hc & _). destruct k; discriminate.
Qed.
Lemma classify_inv ms r tol : (forall x, In x ms -> on_grid r x) ->
  exists cs idx, classify_from ms r tol 0 ms [] (fun _ => None) = Ok (cs, idx) /\ inv ms r tol (length ms) cs idx.
Proof.
  intros G. destruct (classify_from_spec ms r tol) with (todo := ms) (i := 0%nat) (cs := @nil cls) (idx := fun _ : nat => @None nat) as (cs & idx & E & I).
  - intros j x Hj. apply G. eapply nth_error_In. exact Hj.
  - reflexivity.
  - apply inv_empty.
  - eauto.
Qed.

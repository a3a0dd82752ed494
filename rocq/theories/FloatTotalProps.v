(** C246: totals of parts in floating-point arithmetic. *)
From Coq Require Import Reals Lra Permutation.
From Flocq Require Import Core Relative Plus_error.
From Verif Require Import Prelude FloatWidth FloatWidthProps FloatEval FloatEvalProps FloatOrderProps FloatTotal.
Open Scope R_scope.
#[local] Existing Instance prec_ok.
#[local] Existing Instance fexp_ok.
#[local] Existing Instance mono_ok.

(** ** Specification *)
(** The exact total, and the total of the absolute values. *)
Definition exact_total (vs : list R) : R := fold_right Rplus 0 vs.
Definition magnitude (vs : list R) : R := fold_right Rplus 0 (map Rabs vs).

(** ** Proofs *)
Notation addf := (fun t v : R => rnd (t + v)).
Lemma rnd_sum a b : is_float a -> is_float b -> Rabs (rnd (a + b) - (a + b)) <= u * Rabs (a + b).
Proof.
  intros FA FB. destruct (Rle_dec (bpow radix2 (-1022)) (Rabs (a + b))) as [L|L]; [now apply rnd_rel|].
  assert (F : is_float (a + b)).
  { unfold is_float, fexp64. apply (FLT_format_plus_small radix2 (-1074) 53 a b); [exact FA|exact FB|]. apply Rlt_le, Rnot_le_lt. intros X. apply L. eapply Rle_trans; [|exact X]. apply bpow_le. lia. }
  rewrite (rnd_id _ F). replace (a + b - (a + b)) with 0 by ring. rewrite Rabs_R0. apply Rmult_le_pos; [apply bpow_ge_0|apply Rabs_pos].
Qed.
Lemma fold_float vs : forall t, is_float t -> is_float (fold_left addf vs t).
Proof. induction vs as [|v vs IH]; intros t F; [exact F|]. cbn. apply IH, rnd_float. Qed.
Lemma fold_mono vs vs' : Forall2 Rle vs vs' -> forall t t', t <= t' -> fold_left addf vs t <= fold_left addf vs' t'.
Proof. intros F. induction F as [|v v' vs vs' V F IH]; intros t t' T; [exact T|]. cbn. apply IH, rnd_le. lra. Qed.
Lemma Forall2_refl vs : Forall2 Rle vs vs. Proof. induction vs; constructor; auto using Rle_refl. Qed.
Lemma fold_summed vs : forall t l, summed l t -> summed (l ++ vs) (fold_left addf vs t).
Proof.
  induction vs as [|v vs IH]; intros t l S; [now rewrite app_nil_r|]. cbn. replace (l ++ v :: vs) with ((l ++ [v]) ++ vs) by now rewrite <- app_assoc.
  apply IH. apply sum_cat; [exact S|apply sum_one].
Qed.
Lemma start r : rnd (r * 0) = 0. Proof. now rewrite Rmult_0_r, rnd_0. Qed.
Lemma total_summed r vs : summed vs (total_f r vs).
Proof. unfold total_f. rewrite start. exact (fold_summed vs 0 [] sum_nil). Qed.

Lemma fold_signed vs : Forall is_float vs -> forall t S A k, is_float t -> Rabs S <= A -> Rabs (t - S) <= ((1 + u) ^ k - 1) * A ->
  Rabs (fold_left addf vs t - (S + exact_total vs)) <= ((1 + u) ^ (k + length vs) - 1) * (A + magnitude vs).
Proof.
  assert (U0 : 0 < u) by apply bpow_gt_0.
  intros F. induction F as [|v vs FV F IH]; intros t S A k FT SA E.
  - cbn [fold_left exact_total magnitude map fold_right length]. now rewrite Nat.add_0_r, !Rplus_0_r.
  - cbn [fold_left length]. unfold exact_total, magnitude in *. cbn [map fold_right].
    replace (S + (v + fold_right Rplus 0 vs)) with ((S + v) + fold_right Rplus 0 vs) by ring.
    replace (A + (Rabs v + fold_right Rplus 0 (map Rabs vs))) with ((A + Rabs v) + fold_right Rplus 0 (map Rabs vs)) by ring.
    replace (k + Datatypes.S (length vs))%nat with (Datatypes.S k + length vs)%nat by lia.
    assert (SV : Rabs (S + v) <= A + Rabs v) by (eapply Rle_trans; [apply Rabs_triang|lra]).
    apply IH; [apply rnd_float|exact SV|].
    pose proof (rnd_sum t v FT FV) as RS. pose proof (Rabs_pos v) as V0. pose proof (Rabs_pos S) as S0.
    assert (P : 1 <= (1 + u) ^ k) by (apply pow_R1_Rle; lra). set (g := (1 + u) ^ k) in *.
    assert (E' : Rabs (t - S) <= (g - 1) * (A + Rabs v)) by (eapply Rle_trans; [exact E|]; apply Rmult_le_compat_l; lra).
    assert (T : Rabs (t + v) <= (g - 1) * (A + Rabs v) + (A + Rabs v)).
    { replace (t + v) with ((t - S) + (S + v)) by ring. eapply Rle_trans; [apply Rabs_triang|]. lra. }
    replace (rnd (t + v) - (S + v)) with ((rnd (t + v) - (t + v)) + (t - S)) by ring.
    eapply Rle_trans; [apply Rabs_triang|]. cbn [pow]. fold g.
    assert (H : u * Rabs (t + v) <= u * (g * (A + Rabs v))) by (apply Rmult_le_compat_l; lra). lra.
Qed.

(** The total of the values of n parts at a point in double precision: a double, that of no
    parts 0, off by at most the total of their absolute values times n * 2^-51, and never
    lower when the values of parts grow.  If no part is negative the total is at
    least each of them, further parts never lower it, it is off by at most a factor of
    1 + n * 2^-51, and the order of the parts changes it by at most a factor of
    1 + 2n * 2^-51. *)
Theorem C246_totals_in_double_precision :
  forall r vs, (forall v, In v vs -> is_float v) -> (Z.of_nat (length vs) <= 2 ^ 49)%Z ->
  let n := IZR (Z.of_nat (length vs)) in
  is_float (total_f r vs) /\ total_f r [] = 0 /\
  Rabs (total_f r vs - exact_total vs) <= magnitude vs * (n * bpow radix2 (-51)) /\
  (forall vs', Forall2 Rle vs vs' -> total_f r vs <= total_f r vs') /\
  ((forall v, In v vs -> 0 <= v) ->
     (forall v, In v vs -> v <= total_f r vs) /\
     (forall more, (forall v, In v more -> is_float v /\ 0 <= v) -> total_f r vs <= total_f r (vs ++ more)) /\
     total_f r vs <= exact_total vs * (1 + n * bpow radix2 (-51)) /\ exact_total vs <= total_f r vs * (1 + n * bpow radix2 (-51)) /\
     (forall vs', Permutation vs vs' -> total_f r vs' <= total_f r vs * (1 + 2 * n * bpow radix2 (-51)))).
Proof.
  intros r vs F L n. assert (FF : Forall is_float vs) by now apply Forall_forall.
  assert (U0 : 0 < u) by apply bpow_gt_0.
  assert (TOL : forall k, (Z.of_nat k <= 2 ^ 51)%Z -> (1 + 2 * u) ^ k <= 1 + IZR (Z.of_nat k) * bpow radix2 (-51)).
  { intros k K. apply grow_linear. change (bpow radix2 51) with (IZR (2 ^ 51)). now apply IZR_le. }
  split; [unfold total_f; apply fold_float, rnd_float|]. split; [unfold total_f; cbn; apply start|]. split; [|split].
  - unfold total_f. rewrite start. pose proof (fold_signed vs FF 0 0 0 0%nat is_0) as H. rewrite !Rabs_R0, Rminus_0_r, Rabs_R0, !Rplus_0_l in H. cbn [pow Nat.add] in H.
    specialize (H (Rle_refl 0) ltac:(lra)). eapply Rle_trans; [exact H|]. rewrite Rmult_comm. apply Rmult_le_compat_l.
    + unfold magnitude. clear. induction vs as [|v vs IH]; cbn; [lra|]. pose proof (Rabs_pos v). lra.
    + pose proof (TOL (length vs) ltac:(lia)) as T. assert (P : (1 + u) ^ length vs <= (1 + 2 * u) ^ length vs) by (apply pow_incr; lra). fold n in T. lra.
  - intros vs' H. unfold total_f. apply fold_mono; [exact H|lra].
  - intros NN. assert (FN : Forall nonneg_float vs) by (apply Forall_forall; intros v Hv; split; auto).
    destruct (summed_facts _ _ (total_summed r vs) FN) as ((NF & NP) & A & M). rewrite Forall_forall in M.
    split; [exact M|]. split.
    + intros more HM. unfold total_f. rewrite fold_left_app. set (t := fold_left addf vs (rnd (r * 0))).
      assert (FT : is_float t) by (unfold t; apply fold_float, rnd_float).
      clearbody t. clear -HM FT. revert t FT. induction more as [|v more IH]; intros t FT; [cbn; lra|]. cbn [fold_left].
      apply Rle_trans with (rnd (t + v)).
      * destruct (HM v (or_introl eq_refl)) as [_ V]. apply rnd_down; [exact FT|lra].
      * apply IH; [intros w Hw; apply HM; now right|apply rnd_float].
    + assert (A' : near (length vs) (total vs) (total_f r vs)) by (eapply near_weaken; [|exact A]; lia).
      pose proof (TOL (length vs) ltac:(lia)) as T. fold n in T. change (exact_total vs) with (total vs).
      destruct A' as (B & C & D & E). split; [eapply Rle_trans; [exact E|now apply Rmult_le_compat_l]|]. split; [eapply Rle_trans; [exact D|now apply Rmult_le_compat_l]|].
      intros vs' PM. assert (FN' : Forall nonneg_float vs') by (eapply Permutation_Forall; [exact PM|exact FN]).
      destruct (summed_facts _ _ (total_summed r vs') FN') as (_ & A2 & _). rewrite <- (total_perm _ _ PM), <- (Permutation_length PM) in A2.
      assert (N2 : near (length vs + length vs) (total_f r vs) (total_f r vs')).
      { eapply near_weaken; [|eapply near_trans; [apply near_sym, A|exact A2]]. lia. }
      destruct N2 as (_ & _ & _ & N2). eapply Rle_trans; [exact N2|]. apply Rmult_le_compat_l; [exact NP|].
      eapply Rle_trans; [apply TOL; lia|]. apply Req_le. rewrite Nat2Z.inj_add, plus_IZR. fold n. ring.
Qed.
Print Assumptions C246_totals_in_double_precision.
Example C246_nonvacuous : (forall v, In v [1; 2] -> is_float v) /\ (forall v, In v [1; 2] -> 0 <= v) /\ exact_total [1; 2] = 3 /\ total_f 5 [1; 2] = 3.
Proof.
  split; [intros v [<-|[<-|[]]]; [apply is_1|apply is_2]|]. split; [intros v [<-|[<-|[]]]; lra|]. split; [unfold exact_total; cbn; ring|].
  unfold total_f. cbn [fold_left]. rewrite start, Rplus_0_l, (rnd_id 1 is_1). replace (1 + 2) with (IZR 3 * bpow radix2 0) by (cbn; ring).
  rewrite rnd_id; [cbn; ring|]. apply generic_format_FLT. exists (Float radix2 3 0); [reflexivity| |cbn; lia]. cbn [Fnum]. change (Zpower radix2 53) with (2 ^ 53)%Z. lia.
Qed.

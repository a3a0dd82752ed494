(** C229: fits and comparisons of models do not depend on the unit of the intensities. *)
From Coq Require Import Reals Lra Permutation.
From Verif Require Import Prelude Parts PartsProofs PeakFuncs Baselines Evaluators Residual ResidualProps.
Open Scope R_scope.

(** *** Specification *)
(** Parameters in other units: those marked in [lin] are proportional to intensity. *)
Fixpoint rescale (k : R) (lin : list bool) (l : list R) : list R :=
  match l, lin with
  | v :: l', b :: lin' => (if b then k * v else v) :: rescale k lin' l'
  | _, _ => l
  end.
(** A class of functions whose values are proportional to the marked parameters, taken
    together. *)
Definition proportional (k : R) (n : nat) (f : func) (lin : list bool) : Prop :=
  forall l t, length l = n -> fn_value f (rescale k lin l) t = k * fn_value f l t.
(** A model with the marks of its parts, the same model in other units, and the vector of
    free parameters in other units. *)
Definition marked := list (part * list bool).
Definition parts_of (m : marked) : list part := map fst m.
Definition in_units (k : R) (m : marked) : list part :=
  map (fun pl => mkPart (p_fn (fst pl)) (rescale k (snd pl) (p_pars (fst pl))) (p_free (fst pl))) m.
Definition free_marks (m : marked) : list bool := concat (map (fun pl => mask_get (snd pl) (p_free (fst pl))) m).
Definition well_marked (k : R) (m : marked) : Prop :=
  forall p lin, In (p, lin) m -> length (p_free p) = length (p_pars p) /\ length lin = length (p_pars p) /\
    proportional k (length (p_pars p)) (p_fn p) lin.

(** *** Proofs *)
Lemma rescale_len k l : forall lin, length (rescale k lin l) = length l.
Proof. induction l as [|v l IH]; intros [|b lin]; cbn; auto. Qed.
Lemma rescale_app k a : forall A B c, length A = length a -> rescale k (A ++ B) (a ++ c) = rescale k A a ++ rescale k B c.
Proof. induction a as [|v a IH]; intros [|b A] B c L; try discriminate; [reflexivity|]. cbn. f_equal. apply IH. now injection L. Qed.
Lemma rescale_mask k free : forall lin pars v, length lin = length pars -> length free = length pars -> length v = nfree free ->
  mask_put (rescale k lin pars) free (rescale k (mask_get lin free) v) = rescale k lin (mask_put pars free v).
Proof.
  induction free as [|[] free IH]; intros [|b lin] [|p pars] v L1 L2 L3; try discriminate; try reflexivity.
  - destruct v as [|z v]; [discriminate|]. unfold nfree in *. cbn in *. f_equal. apply IH; lia.
  - unfold nfree in *. cbn in *. f_equal. apply IH; lia.
Qed.
Section Units.
Variable k : R.
Hypothesis k_pos : 0 < k.
Lemma put_units m : well_marked k m -> forall x, (total_free (parts_of m) <= length x)%nat ->
  put (in_units k m) (rescale k (free_marks m) x) = in_units k (combine (put (parts_of m) x) (map snd m)).
Proof using Type.
  clear k_pos. induction m as [|[p lin] m IH]; intros W x LX; [reflexivity|].
  destruct (W p lin (or_introl eq_refl)) as (L1 & L2 & _).
  cbn [in_units map parts_of fst snd put combine]. change (total_free (parts_of ((p, lin) :: m))) with (nfree_part p + total_free (parts_of m))%nat in LX.
  assert (LM : length (mask_get lin (p_free p)) = nfree_part p) by (apply mask_get_length; congruence).
  pose proof (firstn_skipn (nfree_part p) x) as E.
  assert (LF : length (firstn (nfree_part p) x) = nfree_part p) by (rewrite firstn_length; lia).
  assert (RX : rescale k (free_marks ((p, lin) :: m)) x = rescale k (mask_get lin (p_free p)) (firstn (nfree_part p) x) ++ rescale k (free_marks m) (skipn (nfree_part p) x)).
  { rewrite <- E at 1. unfold free_marks. cbn [map concat fst snd]. apply rescale_app. now rewrite LM, LF. }
  rewrite RX. f_equal.
  - unfold put_part, nfree_part in *. cbn [p_fn p_pars p_free]. f_equal. 
    rewrite firstn_app, rescale_len, LF, Nat.sub_diag, firstn_O, app_nil_r. rewrite firstn_all2 by (rewrite rescale_len; lia).
    apply rescale_mask; [exact L2|exact L1|exact LF].
  - unfold nfree_part at 1. cbn [p_free]. fold (nfree_part p). rewrite skipn_app, rescale_len, LF, Nat.sub_diag, skipn_O.
    rewrite skipn_all2 by (rewrite rescale_len; lia). cbn [app].
    apply IH; [intros q l I; apply W; now right|rewrite skipn_length; lia].
Qed.
Lemma model_units m t : (forall p lin, In (p, lin) m -> proportional k (length (p_pars p)) (p_fn p) lin) ->
  model_at (in_units k m) t = k * model_at (parts_of m) t.
Proof using Type.
  clear k_pos. induction m as [|[p lin] m IH]; intros W; unfold model_at; cbn [in_units parts_of map fold_right fst snd p_fn p_pars]; [ring|].
  rewrite (W p lin (or_introl eq_refl) _ t eq_refl). unfold model_at in IH. unfold in_units, parts_of in IH. rewrite IH; [ring|].
  intros q l I. apply W. now right.
Qed.
Lemma put_pars ms : forall x, map (fun p => length (p_pars p)) (put ms x) = map (fun p => length (p_pars p)) ms /\ map p_fn (put ms x) = map p_fn ms /\ length (put ms x) = length ms.
Proof using Type.
  clear k_pos. induction ms as [|p ms IH]; intros x; [now repeat split|]. cbn [put map length]. destruct (IH (skipn (nfree_part p) x)) as (A & B & C).
  rewrite A, B, C. unfold put_part at 1 2. cbn [p_pars p_fn]. rewrite mask_put_length. now repeat split.
Qed.
Lemma put_proportional m x p lin : well_marked k m -> In (p, lin) (combine (put (parts_of m) x) (map snd m)) -> proportional k (length (p_pars p)) (p_fn p) lin.
Proof using Type.
  clear k_pos. revert x. induction m as [|[q l] m IH]; intros x W I; [destruct I|]. cbn [parts_of map fst snd put combine] in I. destruct I as [E|I].
  - injection E as <- <-. destruct (W q l (or_introl eq_refl)) as (_ & _ & H). unfold put_part. cbn [p_fn p_pars]. now rewrite mask_put_length.
  - eapply IH; [|exact I]. intros q' l' J. apply W. now right.
Qed.
Lemma div_units e : (forall s, In s e -> s <> 0) -> forall y t, div_diff (map (Rmult k) y) (map (Rmult k) t) (map (Rmult k) e) = div_diff y t e.
Proof using k_pos.
  intros H. induction e as [|s e IH]; intros [|u y] [|v t]; try reflexivity. cbn [map div_diff]. f_equal.
  - field. split; [apply H; now left|lra].
  - apply IH. intros s' I. apply H. now right.
Qed.
Lemma in_cut {A} g (l : list A) v : In v (cut g l) -> In v l.
Proof using Type.
  clear k_pos k. destruct g as [[u w]|]; cbn [cut]; [|auto]. intros I. rewrite <- (firstn_skipn u l). apply in_or_app. right.
  rewrite <- (firstn_skipn (w - u) (skipn u l)). apply in_or_app. now left.
Qed.

(** Whatever the parameters, the vector handed to the optimiser is the same when intensities,
    uncertainties and the parameters proportional to intensity are given in another unit: the
    two least-squares problems are one problem. *)
Theorem C229_same_least_squares_problem :
  forall (m : marked) x r y e g, well_marked k m -> (total_free (parts_of m) <= length x)%nat -> (forall s, In s e -> s <> 0) ->
    residual (in_units k m) (rescale k (free_marks m) x) r (map (Rmult k) y) (map (Rmult k) e) g =
    residual (parts_of m) x r y e g.
Proof using k_pos.
  intros m x r y e g W LX HE. unfold residual. rewrite put_units by assumption. rewrite !cut_value, !cut_map.
  set (m' := combine (put (parts_of m) x) (map snd m)).
  assert (PO : parts_of m' = put (parts_of m) x).
  { unfold m', parts_of. assert (L : length (put (map fst m) x) = length (map snd m)) by (destruct (put_pars (map fst m) x) as (_ & _ & L); rewrite L, !map_length; reflexivity).
    revert L. generalize (put (map fst m) x) (map snd m). clear. induction l as [|u l IH]; intros [|v l'] L; try discriminate; [reflexivity|]. cbn. f_equal. apply IH. now injection L. }
  replace (map (model_at (in_units k m')) (cut g r)) with (map (Rmult k) (map (model_at (put (parts_of m) x)) (cut g r))).
  - apply div_units. intros s I. apply HE. eapply in_cut; exact I.
  - rewrite map_map. apply map_ext. intros t. rewrite model_units; [now rewrite PO|]. intros p lin I. exact (put_proportional m x p lin W I).
Qed.
End Units.

(** The classes of the library: the area of a peak, all coefficients of a polynomial, the
    scale of a nanosphere. *)
Theorem C229_classes : forall k, 0 < k ->
  (forall W, proportional k 3 (gor_func W) [false; false; true]) /\
  (forall d n, proportional k n (poly_func d) (repeat true n)) /\
  proportional k 2 nano_func [true; false].
Proof.
  intros k K. split; [|split].
  - intros W [|p [|w [|a [|z l]]]] t L; try discriminate. cbn [rescale gor_func fn_value]. unfold pars3_of. cbn [nth].
    unfold gor_value, degenerate, p_wid, p_area, p_pos. destruct (Req_EM_T (sin w + 1) 0); cbn [or0]; [ring|].
    destruct (Req_EM_T t 0); cbn [or0]; [ring|]. rewrite Rabs_mult, (Rabs_right k) by lra. unfold Rdiv. ring.
  - intros d n l t <-. cbn [poly_func fn_value]. unfold polyval.
    assert (G : forall l z, fold_left (fun y p => y * t + p) (rescale k (repeat true (length l)) l) (k * z) = k * fold_left (fun y p => y * t + p) l z).
    { clear l. induction l as [|v l IH]; intros z; [reflexivity|]. cbn [length repeat rescale fold_left].
      replace (k * z * t + k * v) with (k * (z * t + v)) by ring. apply IH. }
    rewrite <- G. now rewrite Rmult_0_r.
  - intros [|s [|q [|z l]]] t L; try discriminate. cbn [rescale nano_func fn_value nth].
    unfold nano_value. destruct (Rle_dec t 0); [ring|]. destruct (Rle_dec (2 * q) t); [ring|]. unfold nano_value2.
    rewrite Rabs_mult, (Rabs_right k) by lra. ring.
Qed.

(** An evaluator judges the model in other units, and with the points in another order, as it
    judges the model: the same quality, the same error and the same answer to
    growth_justified. *)
Lemma chi_units k ps : 0 < k -> (forall v o s, In (v, o, s) ps -> s <> 0) ->
  chi_squared (map (fun p => let '(v, o, s) := p in (k * v, k * o, k * s)) ps) = chi_squared ps.
Proof.
  intros K H. unfold chi_squared. f_equal. rewrite map_map. apply map_ext_in. intros [[v o] s] I. specialize (H v o s I). field. split; [exact H|lra].
Qed.
Lemma chi_perm ps qs : Permutation ps qs -> chi_squared ps = chi_squared qs.
Proof.
  intros P. unfold chi_squared. induction P as [|[[v o] s] l m P IH|[[v o] s] [[v' o'] s'] l|l m n P1 IH1 P2 IH2]; cbn [map fold_right]; [reflexivity|now rewrite IH|ring|congruence].
Qed.
Theorem C229_same_judgement :
  forall k ev f qs fixed kshift n, 0 < k -> (forall v o s, In (v, o, s) (points f) -> s <> 0) ->
    Permutation qs (map (fun p => let '(v, o, s) := p in (k * v, k * o, k * s)) (points f)) ->
    let f' := mkFit (npars_all f) (npars_free f) qs in
    evaluate ev f' fixed kshift = evaluate ev f fixed kshift /\ growth_justified ev f' n = growth_justified ev f n.
Proof.
  intros k ev f qs fixed kshift n K H P. cbv zeta.
  assert (S : size (mkFit (npars_all f) (npars_free f) qs) = size f) by (unfold size; cbn [points]; rewrite (Permutation_length P), map_length; reflexivity).
  assert (C : chi_squared qs = chi_squared (points f)) by (rewrite (chi_perm _ _ P); now apply chi_units).
  unfold evaluate, growth_justified. rewrite S. cbn [points npars_all npars_free]. rewrite C. split; reflexivity.
Qed.

(** One peak with fixed width on a line, in units a thousand times smaller. *)
Definition C229_model : marked := [(mkPart (gor_func 2) [3; 1; 5] [true; false; true], [false; false; true]); (mkPart (poly_func 1) [1; 2] [true; true], [true; true])].
Example C229_nonvacuous :
  well_marked 1000 C229_model /\ total_free (parts_of C229_model) = 4%nat /\ rescale 1000 (free_marks C229_model) [3; 5; 1; 2] = [3; 1000 * 5; 1000 * 1; 1000 * 2].
Proof.
  destruct (C229_classes 1000 ltac:(lra)) as (G & P & _). split; [|split; reflexivity].
  intros p lin [E|[E|[]]]; injection E as <- <-; (split; [reflexivity|]; split; [reflexivity|]); [exact (G 2)|exact (P 1%Z 2%nat)].
Qed.

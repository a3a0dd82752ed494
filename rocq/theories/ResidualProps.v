(** Properties C153-C156: residual, Jacobian and covariance given to and taken from the
    optimiser. *)
From Coq Require Import Reals Lra.
From Coquelicot Require Import Coquelicot.
From Verif Require Import Prelude Parts PartsProofs PeakFuncs PeakDerivProps Baselines BaselinesProps Residual.
Open Scope R_scope.

(** ** Specification *)
(** The value of a model at a point. *)
Definition model_at (ms : list part) (a : R) : R := fold_right Rplus 0 (map (fun p => fn_value (p_fn p) (p_pars p) a) ms).
(** [ms'] is [ms] with the values [x] for the free parameters, part by part. *)
Definition with_values (ms : list part) (x : list R) (ms' : list part) : Prop :=
  Forall2 (fun p p' => p_fn p' = p_fn p /\ p_free p' = p_free p /\ length (p_pars p') = length (p_pars p) /\
                       forall i, nth_error (p_free p) i = Some false -> nth_error (p_pars p') i = nth_error (p_pars p) i) ms ms' /\
  concat (map (fun p => mask_get (p_pars p) (p_free p)) ms') = x.
Definition well_formed (p : part) : Prop := length (p_free p) = length (p_pars p) /\ fn_npars (p_fn p) = length (p_pars p).
(** The Jacobian of the class is right for the part [p] at the point [a]: a number for each
    free parameter, the derivative, and None for the others. *)
Definition jacobian_right (p : part) (a : R) : Prop :=
  exists col, fn_jac (p_fn p) (p_pars p) (p_free p) a = Ok col /\ length col = length (p_pars p) /\
    forall i, (i < length (p_pars p))%nat ->
      (nth i (p_free p) false = false -> nth_error col i = Some None) /\
      (nth i (p_free p) false = true -> exists v, nth_error col i = Some (Some v) /\
         derivable_pt_lim (fun q => fn_value (p_fn p) (upd (p_pars p) i q) a) (nth i (p_pars p) 0) v).

(** ** Slices *)
Lemma put_at_len n : forall a v, length (put_at n a v) = n.
Proof. induction n as [|n IH]; intros [|a] v; cbn [put_at length]; auto. destruct v; cbn [length]; now rewrite IH. Qed.
Lemma put_at_skip n : forall a v, skipn a (put_at n a v) = put_at (n - a) 0 v.
Proof. induction n as [|n IH]; intros [|a] v; cbn [put_at skipn Nat.sub]; auto. Qed.
Lemma put_at_first n : forall m v, length v = Nat.min m n -> firstn m (put_at n 0 v) = v.
Proof.
  induction n as [|n IH]; intros m v H; cbn [put_at].
  - rewrite Nat.min_0_r in H. rewrite firstn_nil. destruct v; [reflexivity|discriminate].
  - destruct m as [|m]; [destruct v; [reflexivity|discriminate]|]. destruct v as [|x v]; [discriminate|]. cbn [firstn]. f_equal. apply IH. cbn in H. lia.
Qed.
Lemma cut_embed {A} g (l : list A) v : length v = length (cut g l) -> cut g (embed g (length l) v) = v.
Proof.
  destruct g as [[a b]|]; cbn [cut embed]; [|auto]. intros H. rewrite put_at_skip. apply put_at_first. rewrite H, firstn_length, skipn_length. reflexivity.
Qed.
Lemma cut_map {A B} (f : A -> B) g l : cut g (map f l) = map f (cut g l).
Proof. destruct g as [[a b]|]; cbn [cut]; [|reflexivity]. now rewrite skipn_map, firstn_map. Qed.
Lemma cut_add g : forall a b, cut g (add_lists a b) = add_lists (cut g a) (cut g b).
Proof.
  assert (SK : forall k a b, skipn k (add_lists a b) = add_lists (skipn k a) (skipn k b)).
  { induction k as [|k IH]; intros [|x a] [|y b]; cbn [add_lists skipn]; auto; destruct (skipn k a); reflexivity. }
  assert (FI : forall k a b, firstn k (add_lists a b) = add_lists (firstn k a) (firstn k b)).
  { induction k as [|k IH]; intros [|x a] [|y b]; cbn [add_lists firstn]; auto. now rewrite IH. }
  destruct g as [[u v]|]; cbn [cut]; intros; [|reflexivity]. now rewrite SK, FI.
Qed.
Lemma add_map {A} (f g : A -> R) l : add_lists (map f l) (map g l) = map (fun a => f a + g a) l.
Proof. induction l as [|a l IH]; [reflexivity|]. cbn. now rewrite IH. Qed.
Lemma cut_len {A B} g (a : list A) (b : list B) : length a = length b -> length (cut g a) = length (cut g b).
Proof. destruct g as [[u v]|]; cbn [cut]; [|auto]. intros H. rewrite !firstn_length, !skipn_length. lia. Qed.
Lemma cut_value ms r g : cut g (value ms r g) = map (model_at ms) (cut g r).
Proof.
  unfold value. assert (G : forall ms t (f : R -> R), cut g t = map f (cut g r) ->
    cut g (fold_left (fun t p => add_lists t (part_value p r g)) ms t) = map (fun a => f a + model_at ms a) (cut g r)).
  { clear ms. induction ms as [|p ms IH]; intros t f H; cbn [fold_left].
    - rewrite H. apply map_ext. intros a. unfold model_at. cbn. lra.
    - rewrite (IH _ (fun a => f a + fn_value (p_fn p) (p_pars p) a)).
      + apply map_ext. intros a. unfold model_at. cbn [map fold_right]. lra.
      + rewrite cut_add, H. unfold part_value. rewrite cut_embed by (now rewrite map_length). apply add_map. }
  rewrite (G ms _ (fun a => a * 0)) by apply cut_map. apply map_ext. intros a. lra.
Qed.
Lemma div_diff_nth y : forall t e j b c d, nth_error y j = Some b -> nth_error t j = Some c -> nth_error e j = Some d -> nth_error (div_diff y t e) j = Some ((b - c) / d).
Proof.
  induction y as [|a y IH]; intros [|u t] [|w e] [|j] b c d H1 H2 H3; try discriminate; cbn in *; [congruence|now apply IH].
Qed.
Lemma div_diff_len y : forall t e, length t = length y -> length e = length y -> length (div_diff y t e) = length y.
Proof. induction y as [|a y IH]; intros [|u t] [|w e] H1 H2; try discriminate; cbn in *; [reflexivity|]. now rewrite IH by lia. Qed.
Lemma div_lists_nth y : forall e j b d, nth_error y j = Some b -> nth_error e j = Some d -> nth_error (div_lists y e) j = Some (b / d).
Proof. induction y as [|a y IH]; intros [|w e] [|j] b d H1 H3; try discriminate; cbn in *; [congruence|now apply IH]. Qed.
Lemma div_lists_len y : forall e, length e = length y -> length (div_lists y e) = length y.
Proof. induction y as [|a y IH]; intros [|w e] H; try discriminate; cbn in *; [reflexivity|]. now rewrite IH by lia. Qed.

(** ** Free parameters *)
Lemma mask_put_len {A} (l : list A) : forall m v, length (mask_put l m v) = length l.
Proof. induction l as [|a l IH]; intros [|[] m] v; cbn [mask_put length]; auto. destruct v; cbn [length]; now rewrite IH. Qed.
Lemma put_with_values ms : forall x, (forall p, In p ms -> length (p_free p) = length (p_pars p)) -> length x = total_free ms -> with_values ms x (put ms x).
Proof.
  induction ms as [|p ms IH]; intros x WF L.
  - unfold total_free in L. cbn in L. destruct x; [|discriminate]. split; constructor.
  - assert (L' : length x = (nfree_part p + total_free ms)%nat) by exact L. clear L. destruct (IH (skipn (nfree_part p) x)) as (F & C); [auto using in_cons|rewrite skipn_length; lia|]. assert (WP := WF p (or_introl eq_refl)).
    split; cbn [put].
    + constructor; [|exact F]. cbn. split; [reflexivity|]. split; [reflexivity|]. split; [apply mask_put_len|]. intros i H. now apply mask_put_fixed.
    + cbn [map concat]. rewrite C. cbn [put_part p_pars p_free]. rewrite mask_get_put; [apply firstn_skipn|congruence|]. rewrite firstn_length. unfold nfree_part in *. lia.
Qed.
(** The position of the k-th free parameter. *)
Fixpoint kth (f : list bool) (k : nat) : nat :=
  match f with [] => 0%nat | true :: r => match k with O => 0%nat | S k' => S (kth r k') end | false :: r => S (kth r k) end.
Lemma kth_free f : forall k, (k < nfree f)%nat -> (kth f k < length f)%nat /\ nth (kth f k) f false = true.
Proof.
  induction f as [|[] f IH]; intros k H; [cbn in H; lia| |].
  - rewrite nfree_cons in H. destruct k as [|k]; cbn [kth length nth]; [split; [lia|reflexivity]|]. destruct (IH k); [lia|]. split; [lia|assumption].
  - rewrite nfree_cons in H. cbn [kth length nth]. destruct (IH k); [lia|]. split; [lia|assumption].
Qed.
Lemma put_kth f : forall pars v k q, length f = length pars -> length v = nfree f -> (k < nfree f)%nat ->
  mask_put pars f (upd v k q) = upd (mask_put pars f v) (kth f k) q /\ nth (kth f k) (mask_put pars f v) 0 = nth k v 0.
Proof.
  induction f as [|b f IH]; intros pars v k q L V K; [cbn in K; lia|]. destruct pars as [|a pars]; [discriminate|]. rewrite nfree_cons in V, K. cbn in L.
  destruct b; cbn [kth].
  - destruct v as [|c v]; [discriminate|]. cbn in V. destruct k as [|k]; cbn [upd mask_put nth]; [auto|]. destruct (IH pars v k q) as (A & B); [lia|lia|lia|]. rewrite A. auto.
  - cbn [mask_put upd nth]. destruct (IH pars v k q) as (A & B); [lia|lia|lia|]. rewrite A. auto.
Qed.
Lemma upd_len {A} (l : list A) : forall i a, length (upd l i a) = length l.
Proof. induction l as [|b l IH]; intros [|i] a; cbn; auto. Qed.
Lemma firstn_upd {A} n : forall (l : list A) k a, firstn n (upd l k a) = if (k <? n)%nat then upd (firstn n l) k a else firstn n l.
Proof.
  induction n as [|n IH]; intros [|b l] [|k] a; cbn [firstn upd]; try reflexivity; try (destruct (_ <? _)%nat; reflexivity).
  rewrite IH. change (S k <? S n)%nat with (k <? n)%nat. destruct (k <? n)%nat; reflexivity.
Qed.
Lemma skipn_upd {A} n : forall (l : list A) k a, skipn n (upd l k a) = if (k <? n)%nat then skipn n l else upd (skipn n l) (k - n) a.
Proof.
  induction n as [|n IH]; intros [|b l] [|k] a; cbn [skipn upd Nat.sub]; try reflexivity.
  - destruct (_ <? _)%nat; reflexivity.
  - rewrite IH. reflexivity.
Qed.
Lemma nth_firstn_lt {A} (d : A) n : forall l k, (k < n)%nat -> nth k (firstn n l) d = nth k l d.
Proof. induction n as [|n IH]; intros [|a l] [|k] H; cbn; try lia; auto. apply IH. lia. Qed.
Lemma nth_skipn_add {A} (d : A) n : forall l k, nth k (skipn n l) d = nth (n + k) l d.
Proof. induction n as [|n IH]; intros [|a l] k; cbn; auto. now destruct k. Qed.

(** ** The rows *)
Lemma present_app {A} (a b : list (option A)) : present (a ++ b) = (present a ++ present b)%list.
Proof. induction a as [|[x|] a IH]; cbn; [reflexivity|now rewrite IH|exact IH]. Qed.
Lemma present_kth {A} f : forall rs : list (option A), length rs = length f ->
  (forall i, (i < length f)%nat -> nth i f false = false -> nth_error rs i = Some None) ->
  (forall i, (i < length f)%nat -> nth i f false = true -> exists a, nth_error rs i = Some (Some a)) ->
  length (present rs) = nfree f /\ forall k, (k < nfree f)%nat -> exists a, nth_error rs (kth f k) = Some (Some a) /\ nth_error (present rs) k = Some a.
Proof.
  induction f as [|b f IH]; intros [|o rs] L H1 H2; try discriminate.
  - split; [reflexivity|]. intros k K. cbn in K. lia.
  - injection L as L. destruct (IH rs L) as (I1 & I2).
    { intros i Hi Hf. apply (H1 (S i)); [cbn; lia|exact Hf]. }
    { intros i Hi Hf. apply (H2 (S i)); [cbn; lia|exact Hf]. }
    rewrite nfree_cons. destruct b.
    + destruct (H2 0%nat ltac:(cbn; lia) eq_refl) as (a & Ha). cbn in Ha. injection Ha as ->. cbn [present length]. split; [lia|]. intros [|k] K; cbn [kth nth_error]; [eauto|]. apply I2. lia.
    + specialize (H1 0%nat ltac:(cbn; lia) eq_refl). cbn in H1. injection H1 as ->. cbn [present kth nth_error]. split; [lia|]. intros k K. apply I2. lia.
Qed.
Lemma collect_ok {A} (l : list (result A)) (P : nat -> A -> Prop) : (forall j x, nth_error l j = Some x -> exists a, x = Ok a /\ P j a) ->
  exists vs, collect l = Ok vs /\ length vs = length l /\ forall j a, nth_error vs j = Some a -> P j a.
Proof.
  revert P. induction l as [|x l IH]; intros P H; cbn [collect].
  - exists []. split; [reflexivity|]. split; [reflexivity|]. intros [|j] a E; discriminate.
  - destruct (H 0%nat x eq_refl) as (a & -> & PA). destruct (IH (fun j => P (S j))) as (vs & E & L & Q); [intros j y Hy; apply (H (S j) y Hy)|]. cbn [bind]. rewrite E. cbn [bind]. exists (a :: vs). split; [reflexivity|]. split; [cbn; lia|].
    intros [|j] b Hb; cbn in Hb; [injection Hb as <-; exact PA|now apply Q].
Qed.

(** One part: its rows at the points of the range. *)
Lemma part_rows p r g : well_formed p -> cut g r <> [] -> (forall a, In a (cut g r) -> jacobian_right p a) ->
  exists t, part_jac p r g = Ok t /\ length (present t) = nfree_part p /\
    forall k, (k < nfree_part p)%nat -> exists row, nth_error (present t) k = Some (embed g (length r) row) /\ length row = length (cut g r) /\
      forall j a, nth_error (cut g r) j = Some a ->
        derivable_pt_lim (fun q => fn_value (p_fn p) (upd (p_pars p) (kth (p_free p) k) q) a) (nth (kth (p_free p) k) (p_pars p) 0) (nth j row 0).
Proof.
  intros (W1 & W2) NE JR. revert NE JR. unfold part_jac. generalize dependent (cut g r). intros pts NE JR.
  set (C := fun (a : R) (col : list (option R)) => length col = length (p_pars p) /\
    forall i, (i < length (p_pars p))%nat ->
      (nth i (p_free p) false = false -> nth_error col i = Some None) /\
      (nth i (p_free p) false = true -> exists v, nth_error col i = Some (Some v) /\
         derivable_pt_lim (fun q => fn_value (p_fn p) (upd (p_pars p) i q) a) (nth i (p_pars p) 0) v)).
  destruct (collect_ok (map (fn_jac (p_fn p) (p_pars p) (p_free p)) pts) (fun j col => forall a, nth_error pts j = Some a -> C a col)) as (cols & EC & LC & PC).
  { intros j x Hx. rewrite nth_error_map in Hx. destruct (nth_error pts j) as [a|] eqn:Ha; [|discriminate]. injection Hx as <-. destruct (JR a (nth_error_In _ _ Ha)) as (col & E & H). exists col. split; [exact E|]. intros a' [= <-]. exact H. }
  rewrite EC. cbn [bind]. rewrite map_length in LC. eexists. split; [reflexivity|].
  destruct pts as [|a0 pts]; [contradiction|]. destruct cols as [|c0 cols]; [discriminate|].
  assert (C0 : C a0 c0) by (apply (PC 0%nat c0 eq_refl); reflexivity). destruct C0 as (L0 & C0).
  set (rs := rows (fn_npars (p_fn p)) (c0 :: cols)).
  assert (RS : forall i, (i < length (p_pars p))%nat -> nth_error rs i = Some (match nth_error c0 i with Some (Some _) => Some (map (entry i) (c0 :: cols)) | _ => None end)).
  { intros i Hi. unfold rs, rows. rewrite nth_error_map. rewrite W2. rewrite (nth_error_nth' _ 0%nat) by (rewrite seq_length; exact Hi). rewrite seq_nth by exact Hi. reflexivity. }
  assert (LR : length rs = length (p_free p)) by (unfold rs, rows; rewrite map_length, seq_length; congruence).
  set (t := map (option_map (embed g (length r))) rs).
  destruct (present_kth (p_free p) t) as (P1 & P2).
  { unfold t. now rewrite map_length. }
  { intros i Hi Hf. unfold t. rewrite nth_error_map, RS by congruence. destruct (C0 i ltac:(congruence)) as (N & _). now rewrite (N Hf). }
  { intros i Hi Hf. unfold t. rewrite nth_error_map, RS by congruence. destruct (C0 i ltac:(congruence)) as (_ & S). destruct (S Hf) as (v & -> & _). cbn. eauto. }
  split; [exact P1|]. intros k Hk. destruct (P2 k Hk) as (emb & E1 & E2). destruct (kth_free _ _ Hk) as (K1 & K2). rewrite W1 in K1.
  unfold t in E1. rewrite nth_error_map, RS in E1 by exact K1. destruct (C0 _ K1) as (_ & S). destruct (S K2) as (v0 & V0 & _). rewrite V0 in E1. cbn [option_map] in E1. injection E1 as <-.
  exists (map (entry (kth (p_free p) k)) (c0 :: cols)). split; [exact E2|]. split; [rewrite map_length; exact LC|].
  intros j a Ha. assert (CJ : exists col, nth_error (c0 :: cols) j = Some col).
  { destruct (nth_error (c0 :: cols) j) as [col|] eqn:EJ; [eauto|]. apply nth_error_None in EJ. assert (j < length (a0 :: pts))%nat by (apply nth_error_Some; congruence). rewrite LC in EJ. lia. }
  destruct CJ as (col & CJ). destruct (PC j col CJ a Ha) as (LJ & QJ). destruct (QJ _ K1) as (_ & SJ). destruct (SJ K2) as (v & V & DV).
  rewrite (nth_error_nth _ j 0 (x := v)); [exact DV|]. rewrite nth_error_map, CJ. cbn [option_map]. unfold entry. now rewrite V.
Qed.

(** The whole model. *)
Lemma all_rows r g ms : forall x, length x = total_free ms -> cut g r <> [] ->
  (forall p, In p (put ms x) -> well_formed p /\ forall a, In a (cut g r) -> jacobian_right p a) -> (forall p, In p ms -> length (p_free p) = length (p_pars p)) ->
  exists t, all_jac (put ms x) r g = Ok t /\ length (present t) = length x /\
    forall k, (k < length x)%nat -> exists row, nth_error (present t) k = Some (embed g (length r) row) /\ length row = length (cut g r) /\
      forall j a, nth_error (cut g r) j = Some a -> derivable_pt_lim (fun q => model_at (put ms (upd x k q)) a) (nth k x 0) (nth j row 0).
Proof.
  induction ms as [|p ms IH]; intros x L NE H WF.
  - unfold total_free in L. cbn in L. destruct x; [|discriminate]. exists []. split; [reflexivity|]. split; [reflexivity|]. cbn. intros; lia.
  - unfold total_free in L. cbn [map list_sum fold_right] in L. cbn [put] in H |- *. cbn [all_jac].
    assert (LX : length (firstn (nfree_part p) x) = nfree_part p) by (rewrite firstn_length; lia).
    destruct (H (put_part p x) (or_introl eq_refl)) as (W & JR). destruct (part_rows _ r g W NE JR) as (t1 & E1 & N1 & R1). change (nfree_part (put_part p x)) with (nfree_part p) in *.
    destruct (IH (skipn (nfree_part p) x)) as (t2 & E2 & N2 & R2); [rewrite skipn_length; unfold total_free; change (fold_right Nat.add 0%nat (map nfree_part ms)) with (list_sum (map nfree_part ms)) in L; lia|exact NE|intros q Hq; apply H; now right|auto using in_cons|].
    rewrite E1. cbn [bind]. rewrite E2. cbn [bind]. exists (t1 ++ t2)%list. split; [reflexivity|]. rewrite present_app. rewrite app_length, N1, N2, skipn_length.
    split; [lia|]. intros k Hk. destruct (Nat.ltb_spec k (nfree_part p)) as [Lt|Ge].
    + destruct (R1 k Lt) as (row & A & B & C). exists row. split; [rewrite nth_error_app1 by lia; exact A|]. split; [exact B|]. intros j a Ha.
      destruct (put_kth (p_free p) (p_pars p) (firstn (nfree_part p) x) k 0 (WF p (or_introl eq_refl)) LX Lt) as (_ & NK).
      rewrite nth_firstn_lt in NK by exact Lt. cbn [put_part p_pars p_free p_fn] in C. specialize (C j a Ha). rewrite NK in C.
      assert (EQ : forall q, model_at (put_part p (upd x k q) :: put ms (skipn (nfree_part p) (upd x k q))) a =
        fn_value (p_fn p) (upd (mask_put (p_pars p) (p_free p) (firstn (nfree_part p) x)) (kth (p_free p) k) q) a + model_at (put ms (skipn (nfree_part p) x)) a).
      { intros q. unfold model_at at 1. cbn [map fold_right put_part p_pars p_fn]. rewrite firstn_upd, skipn_upd. assert (T : (k <? nfree_part p)%nat = true) by (now apply Nat.ltb_lt). rewrite T.
        destruct (put_kth (p_free p) (p_pars p) (firstn (nfree_part p) x) k q (WF p (or_introl eq_refl)) LX Lt) as (PK & _). rewrite PK. reflexivity. }
      apply is_derive_Reals. eapply is_derive_ext; [intros q; symmetry; apply EQ|]. apply is_derive_Reals in C.
      replace (nth j row 0) with (plus (nth j row 0) 0) by (unfold plus; cbn; lra). apply (is_derive_plus (fun q => fn_value (p_fn p) (upd (mask_put (p_pars p) (p_free p) (firstn (nfree_part p) x)) (kth (p_free p) k) q) a) (fun _ => model_at (put ms (skipn (nfree_part p) x)) a)); [exact C|]. apply (is_derive_const (model_at (put ms (skipn (nfree_part p) x)) a)).
    + destruct (R2 (k - nfree_part p)%nat) as (row & A & B & C); [rewrite skipn_length; lia|]. exists row. split; [rewrite nth_error_app2 by lia; rewrite N1; exact A|]. split; [exact B|]. intros j a Ha.
      specialize (C j a Ha). rewrite nth_skipn_add in C. replace (nfree_part p + (k - nfree_part p))%nat with k in C by lia.
      assert (EQ : forall q, model_at (put_part p (upd x k q) :: put ms (skipn (nfree_part p) (upd x k q))) a =
        fn_value (p_fn p) (mask_put (p_pars p) (p_free p) (firstn (nfree_part p) x)) a + model_at (put ms (upd (skipn (nfree_part p) x) (k - nfree_part p) q)) a).
      { intros q. unfold model_at at 1. cbn [map fold_right put_part p_pars p_fn]. rewrite firstn_upd, skipn_upd. assert (T : (k <? nfree_part p)%nat = false) by (now apply Nat.ltb_ge). rewrite T. reflexivity. }
      apply is_derive_Reals. eapply is_derive_ext; [intros q; symmetry; apply EQ|]. apply is_derive_Reals in C.
      replace (nth j row 0) with (plus 0 (nth j row 0)) by (unfold plus; cbn; lra). apply (is_derive_plus (fun _ => fn_value (p_fn p) (mask_put (p_pars p) (p_free p) (firstn (nfree_part p) x)) a) (fun q => model_at (put ms (upd (skipn (nfree_part p) x) (k - nfree_part p) q)) a)); [|exact C]. apply (is_derive_const (fn_value (p_fn p) (mask_put (p_pars p) (p_free p) (firstn (nfree_part p) x)) a)).
Qed.

(** ** C153 *)
(** What is minimised: (observed - model) / uncertainty at exactly the points of the range,
    for the model with the given free parameters. *)
Theorem C153_residual :
  forall ms x r y e g, (forall p, In p ms -> length (p_free p) = length (p_pars p)) -> length x = total_free ms ->
    length y = length r -> length e = length r ->
    exists ms', with_values ms x ms' /\ length (residual ms x r y e g) = length (cut g r) /\
      forall j a b c, nth_error (cut g r) j = Some a -> nth_error (cut g y) j = Some b -> nth_error (cut g e) j = Some c ->
        nth_error (residual ms x r y e g) j = Some ((b - model_at ms' a) / c).
Proof.
  intros ms x r y e g WF LX LY LE. exists (put ms x). split; [now apply put_with_values|].
  assert (LV : length (cut g (value (put ms x) r g)) = length (cut g r)) by (rewrite cut_value; apply map_length).
  split.
  - unfold residual. rewrite div_diff_len; [now apply cut_len| |]; rewrite ?LV; [symmetry|]; apply cut_len; congruence.
  - intros j a b c Ha Hb Hc. unfold residual. apply div_diff_nth; [exact Hb| |exact Hc]. rewrite cut_value, nth_error_map, Ha. reflexivity.
Qed.
(** It vanishes exactly for the models that pass through every data point of the range. *)
Theorem C153_zero_residual :
  forall ms x r y e g, (forall p, In p ms -> length (p_free p) = length (p_pars p)) -> length x = total_free ms ->
    length y = length r -> length e = length r -> (forall c, In c e -> c <> 0) ->
    exists ms', with_values ms x ms' /\
      (Forall (fun v => v = 0) (residual ms x r y e g) <-> forall j a b, nth_error (cut g r) j = Some a -> nth_error (cut g y) j = Some b -> model_at ms' a = b).
Proof.
  intros ms x r y e g WF LX LY LE NZ. destruct (C153_residual ms x r y e g WF LX LY LE) as (ms' & W & LR & H). exists ms'. split; [exact W|].
  assert (IE : forall j, (j < length (cut g r))%nat -> exists c, nth_error (cut g e) j = Some c /\ c <> 0).
  { intros j Hj. destruct (nth_error (cut g e) j) as [c|] eqn:Ec; [|apply nth_error_None in Ec; rewrite (cut_len g e r) in Ec by congruence; lia]. exists c. split; [reflexivity|]. apply NZ.
    apply nth_error_In in Ec. destruct g as [[u v]|]; cbn [cut] in Ec; [|exact Ec]. assert (FS : forall n (l : list R), In c (firstn n l) -> In c l) by (intros n l I; rewrite <- (firstn_skipn n l); apply in_or_app; now left).
    assert (SK : forall n (l : list R), In c (skipn n l) -> In c l) by (intros n l I; rewrite <- (firstn_skipn n l); apply in_or_app; now right). now apply (SK u), (FS (v - u)%nat). }
  split.
  - intros F j a b Ha Hb. assert (Lj : (j < length (cut g r))%nat) by (apply nth_error_Some; congruence). destruct (IE j Lj) as (c & Hc & Nc). specialize (H j a b c Ha Hb Hc). apply nth_error_In in H. rewrite Forall_forall in F. specialize (F _ H). cbn in F.
    assert ((b - model_at ms' a) / c * c = 0) by (rewrite F; ring). unfold Rdiv in H0. rewrite Rmult_assoc, Rinv_l, Rmult_1_r in H0 by exact Nc. lra.
  - intros F. apply Forall_forall. intros v Hv. apply In_nth_error in Hv as (j & Hj). assert (Lj : (j < length (cut g r))%nat) by (rewrite <- LR; apply nth_error_Some; congruence).
    destruct (IE j Lj) as (c & Hc & Nc). destruct (nth_error (cut g r) j) as [a|] eqn:Ha; [|apply nth_error_None in Ha; lia]. destruct (nth_error (cut g y) j) as [b|] eqn:Hb; [|apply nth_error_None in Hb; rewrite (cut_len g y r) in Hb by congruence; lia].
    rewrite (H j a b c Ha Hb Hc) in Hj. injection Hj as <-. rewrite (F j a b Ha Hb). unfold Rdiv. ring.
Qed.

(** ** C154 *)
(** If the classes compute their Jacobians correctly, the matrix given to the optimiser has
    one row per free parameter, in the order of the free parameters, and its entries are
    the partial derivatives of the residuals. *)
Theorem C154_residual_jacobian :
  forall ms x r y e g, (forall p, In p ms -> length (p_free p) = length (p_pars p)) -> length x = total_free ms -> x <> [] ->
    length y = length r -> length e = length r -> cut g r <> [] ->
    (forall ms' p a, with_values ms x ms' -> In p ms' -> In a (cut g r) -> well_formed p /\ jacobian_right p a) ->
    exists J, residual_jacobian ms x r e g = Ok J /\ length J = length x /\ (forall row, In row J -> length row = length (cut g r)) /\
      forall k j, (k < length x)%nat -> (j < length (cut g r))%nat ->
        derivable_pt_lim (fun q => nth j (residual ms (upd x k q) r y e g) 0) (nth k x 0) (nth j (nth k J []) 0).
Proof.
  intros ms x r y e g WF LX NX LY LE NE H. pose proof (put_with_values ms x WF LX) as PW.
  destruct (all_rows r g ms x LX NE) as (t & EJ & LT & RT).
  { intros p Hp. split; [|intros a Ha; now apply (H _ p a PW)]. destruct (cut g r) as [|a l] eqn:EC; [contradiction|]. now apply (H _ p a PW Hp (or_introl eq_refl)). }
  { exact WF. }
  assert (ED : exists k0, residual_jacobian ms x r e g = Ok (map (fun row => div_lists (cut g (map Ropp row)) (cut g e)) (present t)) /\ k0 = 0%nat).
  { exists 0%nat. split; [|reflexivity]. unfold residual_jacobian. destruct x as [|x0 x]; [contradiction|]. rewrite EJ. cbn [bind]. destruct (present t); [discriminate|reflexivity]. }
  destruct ED as (_ & ED & _). rewrite ED. eexists. split; [reflexivity|]. split; [now rewrite map_length|].
  assert (RL : forall row, length row = length (cut g r) -> length (cut g (map Ropp (embed g (length r) row))) = length (cut g e)).
  { intros row Lr. rewrite cut_map, map_length, cut_embed by exact Lr. rewrite Lr. apply cut_len. congruence. }
  split.
  { intros row Hr. apply in_map_iff in Hr as (emb & <- & I). apply In_nth_error in I as (k & Hk). assert (Lk : (k < length x)%nat) by (rewrite <- LT; apply nth_error_Some; congruence).
    destruct (RT k Lk) as (row & R1 & R2 & _). rewrite R1 in Hk. injection Hk as <-. specialize (RL row R2). rewrite div_lists_len by (symmetry; exact RL). rewrite RL. apply cut_len. congruence. }
  intros k j Lk Lj. destruct (RT k Lk) as (row & R1 & R2 & R3).
  destruct (nth_error (cut g r) j) as [a|] eqn:Ha; [|apply nth_error_None in Ha; lia]. specialize (R3 j a Ha).
  destruct (nth_error (cut g y) j) as [b|] eqn:Hb; [|apply nth_error_None in Hb; rewrite (cut_len g y r) in Hb by congruence; lia].
  destruct (nth_error (cut g e) j) as [c|] eqn:Hc; [|apply nth_error_None in Hc; rewrite (cut_len g e r) in Hc by congruence; lia].
  assert (EV : nth j (nth k (map (fun row => div_lists (cut g (map Ropp row)) (cut g e)) (present t)) []) 0 = - nth j row 0 / c).
  { rewrite (nth_error_nth _ k [] (x := div_lists (cut g (map Ropp (embed g (length r) row))) (cut g e))) by (rewrite nth_error_map, R1; reflexivity).
    apply nth_error_nth. apply div_lists_nth; [|exact Hc]. rewrite cut_map, cut_embed by exact R2. rewrite nth_error_map. rewrite (nth_error_nth' row 0) by lia. reflexivity. }
  rewrite EV. apply is_derive_Reals.
  apply (is_derive_ext (fun q => (b - model_at (put ms (upd x k q)) a) / c)).
  { intros q. symmetry. apply nth_error_nth. unfold residual. apply div_diff_nth; [exact Hb| |exact Hc]. rewrite cut_value, nth_error_map, Ha. reflexivity. }
  apply is_derive_Reals in R3. unfold Rdiv. apply (is_derive_ext (fun q => scal (/ c) (minus b (model_at (put ms (upd x k q)) a)))); [intros q; unfold scal, minus, plus, opp; cbn; unfold mult; cbn; ring|].
  replace (- nth j row 0 * / c) with (scal (/ c) (minus 0 (nth j row 0))) by (unfold scal, minus, plus, opp; cbn; unfold mult; cbn; ring).
  apply (is_derive_scal (fun q => minus b (model_at (put ms (upd x k q)) a))). apply (is_derive_minus (fun _ => b)); [apply (is_derive_const b)|exact R3].
Qed.
Print Assumptions C154_residual_jacobian.

(** *** The classes that ship with the package *)
(** Parts for which the optimiser gets correct derivatives at the point [a]: GaussianOverR
    peaks with nonzero area and non-degenerate width away from r = 0; nanospherical
    baselines with positive scale and radius away from the edge of the particle; constant
    baselines; polynomial baselines of any degree without free coefficients. *)
Inductive regular (a : R) : part -> Prop :=
| reg_peak W pos wid area f0 f1 f2 : 0 < W -> sin wid <> -1 -> area <> 0 -> a <> 0 -> regular a (mkPart (gor_func W) [pos; wid; area] [f0; f1; f2])
| reg_nano s R0 f0 f1 : 0 < s -> 0 < R0 -> a <> 2 * R0 -> regular a (mkPart nano_func [s; R0] [f0; f1])
| reg_const c f : regular a (mkPart (poly_func 0) [c] [f])
| reg_fixed d pars : length pars = S d -> regular a (mkPart (poly_func (Z.of_nat d)) pars (repeat false (S d))).

Lemma gor_right a W pos wid area f0 f1 f2 : 0 < W -> sin wid <> -1 -> area <> 0 -> a <> 0 -> jacobian_right (mkPart (gor_func W) [pos; wid; area] [f0; f1; f2]) a.
Proof.
  intros HW S0 A0 Ha. assert (D : degenerate (P3 pos wid area) = false) by (unfold degenerate; cbn [p_wid]; destruct (Req_EM_T _ _); [exfalso; apply S0; lra|reflexivity]).
  destruct (C24_gaussianoverr_jacobian W (P3 pos wid area) a (f0, f1, f2) HW D Ha A0) as (jac & E & L & C).
  exists jac. cbn [p_fn p_pars p_free fn_jac gor_func]. change (pars3_of [pos; wid; area]) with (P3 pos wid area). change (free3_of [f0; f1; f2]) with (f0, f1, f2). rewrite E. split; [reflexivity|]. split; [exact L|].
  intros i Hi. cbn [length] in Hi. destruct (C i Hi) as (CN & CS). 
  assert (FI : nth i [f0; f1; f2] false = is_free i (f0, f1, f2)) by (destruct i as [|[|[|i]]]; try reflexivity; lia).
  cbn [p_free p_pars p_fn]. rewrite FI. split; [exact CN|]. intros F. destruct (CS F) as (v & Ev & g & eps & He & Hg & Dg). exists v. split; [exact Ev|].
  assert (GP : nth i [pos; wid; area] 0 = get_par i (P3 pos wid area)) by (destruct i as [|[|[|i]]]; try reflexivity; lia). rewrite GP.
  apply is_derive_Reals. apply is_derive_Reals in Dg. apply (is_derive_ext_loc g); [|exact Dg].
  exists (mkposreal eps He). intros q Hq. unfold ball in Hq; cbn in Hq; unfold AbsRing_ball in Hq; cbn in Hq. unfold minus, plus, opp in Hq; cbn in Hq.
  specialize (Hg q Hq). cbn [fn_value gor_func]. unfold pars3_of.
  assert (U : P3 (nth 0 (upd [pos; wid; area] i q) 0) (nth 1 (upd [pos; wid; area] i q) 0) (nth 2 (upd [pos; wid; area] i q) 0) = with_par i (P3 pos wid area) q) by (destruct i as [|[|[|i]]]; try reflexivity; lia).
  rewrite U, Hg. reflexivity.
Qed.
Lemma nano_right a s R0 f0 f1 : 0 < s -> 0 < R0 -> a <> 2 * R0 -> jacobian_right (mkPart nano_func [s; R0] [f0; f1]) a.
Proof.
  intros Hs HR Ha. exists (nano_jacobian s R0 a (f0, f1)). cbn [p_fn p_pars p_free fn_jac nano_func nth length]. split; [reflexivity|]. split; [reflexivity|].
  intros [|[|i]] Hi; [| |lia]; cbn [nth]; split; intros ->; try reflexivity.
  - destruct (C113_jacobian_scale s R0 a f1 Hs HR) as (v & E & D). exists v. split; [exact E|exact D].
  - destruct (C31_jacobian_radius s R0 a f0 HR Ha) as (v & E & D). exists v. split; [exact E|exact D].
Qed.
Lemma const_right a c f : jacobian_right (mkPart (poly_func 0) [c] [f]) a.
Proof.
  destruct f.
  - exists [Some (a ^ 0)]. split; [reflexivity|]. split; [reflexivity|]. intros [|i] Hi; [|cbn in Hi; lia]. cbn [nth p_free p_pars]. split; [discriminate|]. intros _. exists (a ^ 0). split; [reflexivity|].
    apply is_derive_Reals. cbn [p_fn poly_func fn_value upd]. unfold polyval. cbn [fold_left]. replace (a ^ 0) with 1 by reflexivity. auto_derive; [trivial|ring].
  - exists [None]. split; [reflexivity|]. split; [reflexivity|]. intros [|i] Hi; [|cbn in Hi; lia]. cbn [nth p_free p_pars]. split; [reflexivity|discriminate].
Qed.
Lemma fixed_right a d pars : length pars = S d -> jacobian_right (mkPart (poly_func (Z.of_nat d)) pars (repeat false (S d))) a.
Proof.
  intros L. exists (map (fun _ => None) (seq 0 (S d))). cbn [p_fn p_pars p_free fn_jac poly_func].
  assert (NF : forall k n, nth k (repeat false n) false = false) by (intros k n; revert k; induction n as [|n IH]; intros [|k]; cbn; auto).
  split; [|split].
  - unfold poly_jacobian. rewrite poly_npars_eq, repeat_length, L, Nat.eqb_refl. cbn [negb].
    assert (FL : forall n, length (filter negb (repeat false n)) = n) by (induction n as [|n IH]; cbn; auto). rewrite FL, Nat.eqb_refl. reflexivity.
  - rewrite map_length, seq_length. now symmetry.
  - intros i Hi. rewrite NF. split; [intros _|discriminate]. rewrite L in Hi. rewrite nth_error_map, (nth_error_nth' _ 0%nat) by (rewrite seq_length; exact Hi). reflexivity.
Qed.
Lemma regular_right a p : regular a p -> well_formed p /\ jacobian_right p a.
Proof.
  intros H. destruct H as [W pos wid area f0 f1 f2 H1 H2 H3 H4|s R0 f0 f1 H1 H2 H3|c f|d pars L].
  - split; [split; reflexivity|now apply gor_right].
  - split; [split; reflexivity|now apply nano_right].
  - split; [split; reflexivity|apply const_right].
  - split; [split; cbn [p_free p_pars p_fn fn_npars poly_func]; [rewrite repeat_length; congruence|rewrite poly_npars_eq; congruence]|now apply fixed_right].
Qed.
(** For these models the optimiser is given the true derivatives. *)
Theorem C154_regular_models :
  forall ms x r y e g, (forall p, In p ms -> length (p_free p) = length (p_pars p)) -> length x = total_free ms -> x <> [] ->
    length y = length r -> length e = length r -> cut g r <> [] ->
    (forall ms' p a, with_values ms x ms' -> In p ms' -> In a (cut g r) -> regular a p) ->
    exists J, residual_jacobian ms x r e g = Ok J /\ length J = length x /\ (forall row, In row J -> length row = length (cut g r)) /\
      forall k j, (k < length x)%nat -> (j < length (cut g r))%nat ->
        derivable_pt_lim (fun q => nth j (residual ms (upd x k q) r y e g) 0) (nth k x 0) (nth j (nth k J []) 0).
Proof.
  intros ms x r y e g WF LX NX LY LE NE H. apply C154_residual_jacobian; auto. intros ms' p a W I Ia. apply regular_right. now apply (H ms').
Qed.
Print Assumptions C154_regular_models.

(** ** C155 *)
Lemma put_app ms : forall x p, put (ms ++ [p]) x = (put ms x ++ [put_part p (skipn (total_free ms) x)])%list.
Proof.
  induction ms as [|m ms IH]; intros x p; cbn [app put]; [reflexivity|]. rewrite IH. cbn [app]. f_equal. f_equal. f_equal. f_equal.
  assert (SS : forall u v (l : list R), skipn u (skipn v l) = skipn (v + u) l) by (intros u v; induction v as [|v IHv]; intros [|b l]; cbn; auto; now rewrite skipn_nil).
  rewrite SS. reflexivity.
Qed.
Lemma all_jac_app r g ms : forall p t1 t2, all_jac ms r g = Ok t1 -> part_jac p r g = Ok t2 -> all_jac (ms ++ [p]) r g = Ok (t1 ++ t2)%list.
Proof.
  induction ms as [|m ms IH]; intros p t1 t2 H1 H2; cbn [app all_jac] in *.
  - injection H1 as <-. rewrite H2. cbn [bind]. now rewrite app_nil_r.
  - destruct (part_jac m r g) as [a|]; [|discriminate]. cbn [bind] in *. destruct (all_jac ms r g) as [b|]; [|discriminate]. cbn [bind] in *. injection H1 as <-. rewrite (IH p b t2 eq_refl H2). cbn [bind]. now rewrite app_assoc.
Qed.

Lemma put_firstn ms : forall x, put ms (firstn (total_free ms) x) = put ms x.
Proof.
  induction ms as [|m ms IH]; intros x; cbn [put]; [reflexivity|]. change (total_free (m :: ms)) with (nfree_part m + total_free ms)%nat. f_equal.
  - unfold put_part. rewrite firstn_firstn. now rewrite Nat.min_l by lia.
  - rewrite <- (IH (skipn (nfree_part m) x)). f_equal. rewrite skipn_firstn_comm. f_equal. lia.
Qed.
Lemma total_free_app ms p : total_free (ms ++ [p]) = (total_free ms + nfree_part p)%nat.
Proof. unfold total_free. rewrite map_app, list_sum_app. cbn. lia. Qed.
(** With a polynomial baseline of degree at least one whose leading coefficient is free,
    the optimiser is given a wrong derivative with respect to that coefficient at every
    point except where r^degree = 1, whatever the peaks are. *)
Theorem C155_polynomial_baseline_refuted :
  forall peaks d pars free x r y e g j a b c, (1 <= d)%nat -> length pars = S d -> length free = S d -> nth 0 free false = true ->
    (forall p, In p peaks -> length (p_free p) = length (p_pars p)) ->
    let ms := (peaks ++ [mkPart (poly_func (Z.of_nat d)) pars free])%list in
    let k := total_free peaks in
    length x = total_free ms ->
    (forall ms' p a, with_values peaks (firstn k x) ms' -> In p ms' -> In a (cut g r) -> regular a p) ->
    nth_error (cut g r) j = Some a -> nth_error (cut g y) j = Some b -> nth_error (cut g e) j = Some c -> c <> 0 -> a ^ d <> 1 ->
    exists J row v, residual_jacobian ms x r e g = Ok J /\ nth_error J k = Some row /\ nth_error row j = Some v /\
      ~ derivable_pt_lim (fun q => nth j (residual ms (upd x k q) r y e g) 0) (nth k x 0) v.
Proof.
  intros peaks d pars free x r y e g j a b c Hd LP LF F0 WF ms k LX REG Ha Hb Hc Nc Na.
  set (pb := mkPart (poly_func (Z.of_nat d)) pars free) in *.
  assert (LX2 : length x = (k + nfree free)%nat) by (rewrite LX; unfold ms; rewrite total_free_app; reflexivity).
  assert (EF : exists free', free = true :: free') by (destruct free as [|b0 free']; [discriminate|]; cbn in F0; subst b0; eauto). destruct EF as (free' & EF).
  assert (NF : (0 < nfree free)%nat) by (rewrite EF, nfree_cons; lia).
  assert (L1 : length (firstn k x) = total_free peaks) by (rewrite firstn_length; fold k; lia).
  assert (NE : cut g r <> []) by (intros E; rewrite E in Ha; destruct j; discriminate).
  destruct (all_rows r g peaks (firstn k x) L1 NE) as (t1 & E1 & N1 & _); [|exact WF|].
  { intros p Hp. split; [|intros a' Ia]; apply (put_with_values peaks (firstn k x) WF) in L1; [|apply regular_right; exact (REG _ p a' L1 Hp Ia)].
    destruct (cut g r) as [|a' l]; [contradiction|]. apply (regular_right a'). exact (REG _ p a' L1 Hp (or_introl eq_refl)). }
  unfold k in E1. rewrite put_firstn in E1. fold k in E1. rewrite L1 in N1. fold k in N1.
  set (v := skipn k x). assert (LV : length v = nfree free) by (unfold v; rewrite skipn_length; lia).
  assert (PM : forall q, put ms (upd x k q) = (put peaks x ++ [put_part pb (upd v 0 q)])%list).
  { intros q. unfold ms. rewrite put_app. fold k. rewrite skipn_upd, Nat.ltb_irrefl, Nat.sub_diag. fold v. f_equal. rewrite <- put_firstn. fold k. rewrite firstn_upd, Nat.ltb_irrefl. unfold k. now rewrite put_firstn. }
  assert (PM0 : put ms x = (put peaks x ++ [put_part pb v])%list) by (unfold ms; rewrite put_app; reflexivity).
  assert (FV : firstn (nfree_part pb) v = v) by (apply firstn_all2; unfold nfree_part, pb; cbn [p_free]; lia).
  (* the rows of the baseline *)
  set (P := mask_put pars free v). assert (LP2 : length P = S d) by (unfold P; now rewrite mask_put_len).
  assert (PB : put_part pb v = mkPart (poly_func (Z.of_nat d)) P free) by (unfold put_part; rewrite FV; reflexivity).
  assert (CJ : forall s, poly_jacobian (Z.of_nat d) P s free = Ok (map (fun idx => if nth idx free false then Some (s ^ idx) else None) (seq 0 (S d)))).
  { intros s. unfold poly_jacobian. rewrite poly_npars_eq, LP2, LF, Nat.eqb_refl. cbn [negb].
    assert (NN : Nat.eqb (length (filter negb free)) (S d) = false).
    { apply Nat.eqb_neq. rewrite EF. cbn [filter negb]. rewrite EF in LF. cbn in LF. intros Q. assert (length (filter negb free') <= length free')%nat by (clear; induction free' as [|[] l IH]; cbn; lia). lia. }
    now rewrite NN. }
  assert (PJ : exists t2 rest, part_jac (put_part pb v) r g = Ok t2 /\ present t2 = embed g (length r) (map (fun _ => 1) (cut g r)) :: rest).
  { rewrite PB. unfold part_jac. cbn [p_fn p_pars p_free fn_jac poly_func fn_npars]. rewrite poly_npars_eq.
    assert (CO : forall pts, collect (map (fun s => poly_jacobian (Z.of_nat d) P s free) pts) = Ok (map (fun s => map (fun idx => if nth idx free false then Some (s ^ idx) else None) (seq 0 (S d))) pts)).
    { induction pts as [|s pts IH]; [reflexivity|]. cbn [map collect]. rewrite CJ. cbn [bind]. rewrite IH. reflexivity. }
    change (fun r0 : R => poly_jacobian (Z.of_nat d) P r0 free) with (fun s : R => poly_jacobian (Z.of_nat d) P s free).
    rewrite (CO (cut g r)). cbn [bind]. clear Ha REG. destruct (cut g r) as [|s0 pts]; [contradiction|]. eexists. eexists. split; [reflexivity|].
    unfold rows. cbn [seq map]. cbn [map hd nth_error]. rewrite EF. cbn [nth]. cbn [option_map present]. f_equal. f_equal.
    rewrite map_map. reflexivity. }
  destruct PJ as (t2 & rest & E2 & PR2).
  pose proof (all_jac_app r g _ _ _ _ E1 E2) as EA. rewrite <- PM0 in EA.
  assert (PT : present (t1 ++ t2) = (present t1 ++ embed g (length r) (map (fun _ => 1) (cut g r)) :: rest)%list) by (rewrite present_app, PR2; reflexivity).
  set (js := present (t1 ++ t2)) in PT.
  assert (RJ : residual_jacobian ms x r e g = Ok (map (fun row => div_lists (cut g (map Ropp row)) (cut g e)) js)).
  { unfold residual_jacobian. destruct x as [|x0 x']; [cbn in LX2; lia|]. rewrite EA. cbn [bind]. fold js. rewrite PT. destruct (present t1); reflexivity. }
  assert (LC : length (map (fun _ : R => 1) (cut g r)) = length (cut g r)) by apply map_length.
  exists (map (fun row => div_lists (cut g (map Ropp row)) (cut g e)) js), (div_lists (cut g (map Ropp (embed g (length r) (map (fun _ => 1) (cut g r))))) (cut g e)), (- (1) / c).
  split; [exact RJ|]. split.
  { rewrite nth_error_map, PT, nth_error_app2 by lia. rewrite N1, Nat.sub_diag. reflexivity. }
  split.
  { apply div_lists_nth; [|exact Hc]. rewrite cut_map, cut_embed by exact LC. rewrite nth_error_map, nth_error_map, Ha. reflexivity. }
  intros D. apply Na. apply is_derive_Reals in D.
  assert (EQ : forall q, nth j (residual ms (upd x k q) r y e g) 0 = (b - (model_at (put peaks x) a + polyval (upd P 0 q) a)) / c).
  { intros q. apply nth_error_nth. unfold residual. apply div_diff_nth; [exact Hb| |exact Hc]. rewrite cut_value, nth_error_map, Ha. cbn [option_map]. f_equal. rewrite PM.
    assert (MA : forall l p, model_at (l ++ [p])%list a = model_at l a + fn_value (p_fn p) (p_pars p) a) by (intros l p; unfold model_at; induction l as [|m l IH]; cbn [app map fold_right]; [lra|rewrite IH; lra]).
    rewrite MA. f_equal. unfold put_part. cbn [p_fn p_pars pb poly_func fn_value p_free]. f_equal.
    assert (FV2 : firstn (nfree_part pb) (upd v 0 q) = upd v 0 q) by (apply firstn_all2; rewrite upd_len; unfold nfree_part, pb; cbn [p_free]; lia). rewrite FV2.
    destruct (put_kth free pars v 0 q) as (K & _); [congruence|exact LV|exact NF|]. assert (K0 : kth free 0 = 0%nat) by (rewrite EF; reflexivity). rewrite K0 in K. exact K. }
  assert (X0 : nth k x 0 = nth 0 P 0).
  { destruct (put_kth free pars v 0 0) as (_ & K); [congruence|exact LV|exact NF|]. assert (K0 : kth free 0 = 0%nat) by (rewrite EF; reflexivity). rewrite K0 in K. fold P in K. rewrite K. unfold v. rewrite nth_skipn_add. f_equal. lia. }
  assert (D2 : is_derive (fun q => nth j (residual ms (upd x k q) r y e g) 0) (nth k x 0) (- a ^ d / c)).
  { apply (is_derive_ext (fun q => scal (/ c) (minus (b - model_at (put peaks x) a) (polyval (upd P 0 q) a)))).
    { intros q. rewrite EQ. unfold scal, minus, plus, opp; cbn; unfold mult; cbn. field. exact Nc. }
    replace (- a ^ d / c) with (scal (/ c) (minus 0 (a ^ d))) by (unfold scal, minus, plus, opp; cbn; unfold mult; cbn; field; exact Nc).
    apply (is_derive_scal (fun q => minus (b - model_at (put peaks x) a) (polyval (upd P 0 q) a))). apply (is_derive_minus (fun _ => b - model_at (put peaks x) a)); [apply (is_derive_const (b - model_at (put peaks x) a))|].
    rewrite X0. assert (0 < length P)%nat as H0 by lia. pose proof (poly_partial P 0 a H0) as Q. rewrite LP2 in Q. replace (S d - 1 - 0)%nat with d in Q by lia. exact Q. }
  pose proof (is_derive_unique _ _ _ D) as U1. pose proof (is_derive_unique _ _ _ D2) as U2. assert (U : - (1) / c = - a ^ d / c) by exact (eq_trans (eq_sym U1) U2).
  assert (- (1) / c * c = - a ^ d / c * c) as U3 by (rewrite U; reflexivity). unfold Rdiv in U3. rewrite !Rmult_assoc, !Rinv_l, !Rmult_1_r in U3 by exact Nc. lra.
Qed.
Print Assumptions C155_polynomial_baseline_refuted.

(** ** C156 *)
(** The covariance estimate of least squares with an unknown scale of the uncertainties:
    the optimiser's matrix times (sum of squared residuals) / (number of residuals - number
    of parameters). *)
Definition reduced_scale (residuals : list R) (nfree : nat) : R := sum_sq residuals / (INR (length residuals) - INR nfree).
(** It is used when the whole data are fitted ... *)
Theorem C156_covariance_full_range_partial :
  forall pcov fvec r x i j c, length fvec = length r -> (length x < length r)%nat ->
    (exists row, nth_error pcov i = Some row /\ nth_error row j = Some c) ->
    exists row, nth_error (fit_covariance pcov fvec r x) i = Some row /\ nth_error row j = Some (c * reduced_scale fvec (length x)).
Proof.
  intros pcov fvec r x i j c L LT (row & E1 & E2). unfold fit_covariance. rewrite nth_error_map, E1. eexists. split; [reflexivity|]. rewrite nth_error_map, E2. cbn [option_map]. f_equal.
  unfold reduced_scale. rewrite L, minus_INR by lia. unfold Rdiv. ring.
Qed.
Print Assumptions C156_covariance_full_range_partial.
(** ... but a fit over part of the data, which is how clusters are fitted (the whole data and
    a slice), divides by the size of the whole data: every nonzero entry is too small, by the
    factor (m - k) / (n - k). *)
Theorem C156_covariance_of_a_slice_refuted :
  forall pcov ms x r y e g i j c, (forall p, In p ms -> length (p_free p) = length (p_pars p)) -> length x = total_free ms ->
    length y = length r -> length e = length r ->
    let fvec := residual ms x r y e g in
    (length x < length (cut g r) < length r)%nat ->
    (exists row, nth_error pcov i = Some row /\ nth_error row j = Some c) -> c <> 0 -> sum_sq fvec <> 0 ->
    exists row v, nth_error (fit_covariance pcov fvec r x) i = Some row /\ nth_error row j = Some v /\
      v = c * reduced_scale fvec (length x) * ((INR (length (cut g r)) - INR (length x)) / (INR (length r) - INR (length x))) /\
      Rabs v < Rabs (c * reduced_scale fvec (length x)).
Proof.
  intros pcov ms x r y e g i j c WF LX LY LE fvec (A & B) (row & E1 & E2) Nc Ns. destruct (C153_residual ms x r y e g WF LX LY LE) as (_ & _ & LR & _). fold fvec in LR.
  apply lt_INR in A. assert (B' := B). apply lt_INR in B'. assert (length x <= length r)%nat by (apply INR_lt in A; lia).
  eexists. eexists. split; [unfold fit_covariance; rewrite nth_error_map, E1; reflexivity|]. split; [rewrite nth_error_map, E2; reflexivity|].
  rewrite minus_INR by assumption. unfold reduced_scale. rewrite LR.
  assert (EQ : c * sum_sq fvec / (INR (length r) - INR (length x)) = c * (sum_sq fvec / (INR (length (cut g r)) - INR (length x))) * ((INR (length (cut g r)) - INR (length x)) / (INR (length r) - INR (length x)))) by (field; lra).
  split; [exact EQ|]. rewrite EQ, Rabs_mult. set (q := (INR (length (cut g r)) - INR (length x)) / (INR (length r) - INR (length x))).
  assert (Q : 0 < q < 1).
  { unfold q. split; [apply Rdiv_lt_0_compat; lra|]. apply Rmult_lt_reg_r with (INR (length r) - INR (length x)); [lra|]. unfold Rdiv. rewrite Rmult_assoc, Rinv_l by lra. lra. }
  rewrite (Rabs_pos_eq q) by lra. assert (0 < Rabs (c * (sum_sq fvec / (INR (length (cut g r)) - INR (length x))))).
  { apply Rabs_pos_lt. apply Rmult_integral_contrapositive_currified; [exact Nc|]. apply Rmult_integral_contrapositive_currified; [exact Ns|]. apply Rinv_neq_0_compat. lra. }
  set (z := Rabs _) in *. clearbody z. nra.
Qed.
Print Assumptions C156_covariance_of_a_slice_refuted.

(** ** C157 *)
(** First-order propagation of a covariance through a map that treats the parameters one by
    one: entry (i, j) is multiplied by the derivatives of components i and j. *)
Definition propagated (T : pars3 -> R * xR * R) (p : pars3) (cov cov' : nat -> nat -> R) : Prop :=
  exists dpos darea, derivable_pt_lim (fun q => fst (fst (T (with_par 0 p q)))) (p_pos p) dpos /\
    derivable_pt_lim (fun q => snd (T (with_par 2 p q))) (p_area p) darea /\ cov' 0%nat 2%nat = dpos * cov 0%nat 2%nat * darea.
(** Refuted: when the optimiser ends with a negative area, fit makes the area positive but
    keeps the covariance of the negative one: a nonzero covariance between position and area
    has the wrong sign. *)
Theorem C157_sign_after_cleanup_refuted :
  forall W p cov, p_area p < 0 -> cov 0%nat 2%nat <> 0 ->
    exists t stored, fit_cleanup W p cov = Ok (t, stored) /\ snd t = - p_area p /\ stored 0%nat 2%nat <> 0 /\
      exists T, (forall q, transform W Internal Internal q = Ok (T q)) /\ forall right, propagated T p cov right -> right 0%nat 2%nat = - stored 0%nat 2%nat.
Proof.
  intros W p cov NA NC. set (T := fun q => (p_pos q, Some (width_out W Internal (normal_width (p_wid q))), Rabs (p_area q))).
  exists (T p), cov. split; [reflexivity|]. split; [cbn; now rewrite Rabs_left|]. split; [exact NC|].
  exists T. split; [reflexivity|]. intros right (dp & da & D1 & D2 & E). rewrite E.
  assert (dp = 1) as ->. { apply (uniqueness_limite _ _ _ _ D1). apply is_derive_Reals. cbn. apply (is_derive_id (p_pos p)). }
  assert (da = -1) as ->.
  { apply (uniqueness_limite _ _ _ _ D2). apply is_derive_Reals. cbn. apply (is_derive_ext_loc (fun q => - q)).
    - exists (mkposreal (- p_area p) ltac:(lra)). intros q Hq. unfold ball in Hq; cbn in Hq; unfold AbsRing_ball in Hq; cbn in Hq. unfold minus, plus, opp in Hq; cbn in Hq. apply Rabs_def2 in Hq. rewrite Rabs_left by lra. reflexivity.
    - auto_derive; [trivial|ring]. }
  ring.
Qed.
Print Assumptions C157_sign_after_cleanup_refuted.
(** It is right when the area is positive and the width parameter is already folded. *)
Theorem C157_positive_area_partial :
  forall W p cov, 0 < p_area p ->
    exists t stored, fit_cleanup W p cov = Ok (t, stored) /\ snd t = p_area p /\
      exists T, (forall q, transform W Internal Internal q = Ok (T q)) /\ (exists right, propagated T p cov right) /\ forall right, propagated T p cov right -> right 0%nat 2%nat = stored 0%nat 2%nat.
Proof.
  intros W p cov NA. set (T := fun q => (p_pos q, Some (width_out W Internal (normal_width (p_wid q))), Rabs (p_area q))).
  exists (T p), cov. split; [reflexivity|]. split; [cbn; rewrite Rabs_pos_eq; [reflexivity|lra]|]. exists T. split; [reflexivity|].
  assert (D1 : derivable_pt_lim (fun q => fst (fst (T (with_par 0 p q)))) (p_pos p) 1) by (apply is_derive_Reals; cbn; apply (is_derive_id (p_pos p))).
  assert (D2 : derivable_pt_lim (fun q => snd (T (with_par 2 p q))) (p_area p) 1).
  { apply is_derive_Reals. cbn. apply (is_derive_ext_loc (fun q => q)).
    - exists (mkposreal (p_area p) NA). intros q Hq. unfold ball in Hq; cbn in Hq; unfold AbsRing_ball in Hq; cbn in Hq. unfold minus, plus, opp in Hq; cbn in Hq. apply Rabs_def2 in Hq. rewrite Rabs_pos_eq by lra. reflexivity.
    - apply (is_derive_id (p_area p)). }
  split.
  - exists (fun i j => cov i j). exists 1, 1. split; [exact D1|]. split; [exact D2|]. ring.
  - intros right (dp & da & E1 & E2 & E). rewrite E. rewrite (uniqueness_limite _ _ _ _ E1 D1), (uniqueness_limite _ _ _ _ E2 D2). ring.
Qed.
Print Assumptions C157_positive_area_partial.

(** ** A model that meets the hypotheses *)
(** Two Gaussians over r (one width fixed) and a constant baseline, fitted to the middle two of
    four points: the parameters the optimiser moves are five numbers. *)
Definition demo : list part :=
  [mkPart (gor_func 1) [2; 0; 3] [true; true; true]; mkPart (gor_func 1) [4; 0; 1] [true; false; false]; mkPart (poly_func 0) [5] [true]].
Example demo_free : total_free demo = 5%nat. Proof. reflexivity. Qed.
Lemma demo_values ms' : with_values demo [2; 0; 3; 4; 5] ms' -> ms' = demo.
Proof.
  intros (F & C). unfold demo in F.
  inversion F as [|p1 q1 l1 l1' H1 F1]; subst. inversion F1 as [|p2 q2 l2 l2' H2 F2]; subst. inversion F2 as [|p3 q3 l3 l3' H3 F3]; subst. inversion F3; subst.
  destruct q1 as [f1 v1 b1], q2 as [f2 v2 b2], q3 as [f3 v3 b3]. cbn [p_fn p_free p_pars] in *.
  destruct H1 as (-> & -> & L1 & _), H2 as (-> & -> & L2 & K2), H3 as (-> & -> & L3 & _).
  destruct v1 as [|a1 [|a2 [|a3 [|? ?]]]]; try discriminate. destruct v2 as [|c1 [|c2 [|c3 [|? ?]]]]; try discriminate. destruct v3 as [|d1 [|? ?]]; try discriminate.
  pose proof (K2 1%nat eq_refl) as Q1. pose proof (K2 2%nat eq_refl) as Q2. cbn in Q1, Q2, C. injection Q1 as ->. injection Q2 as ->. injection C as -> -> -> -> ->. reflexivity.
Qed.
Example C154_example :
  exists J, residual_jacobian demo [2; 0; 3; 4; 5] [1; 2; 3; 4] [1; 1; 2; 1] (Some (1, 3)%nat) = Ok J /\ length J = 5%nat /\
    forall k j, (k < 5)%nat -> (j < 2)%nat ->
      derivable_pt_lim (fun q => nth j (residual demo (upd [2; 0; 3; 4; 5] k q) [1; 2; 3; 4] [7; 8; 9; 7] [1; 1; 2; 1] (Some (1, 3)%nat)) 0) (nth k [2; 0; 3; 4; 5] 0) (nth j (nth k J []) 0).
Proof.
  destruct (C154_regular_models demo [2; 0; 3; 4; 5] [1; 2; 3; 4] [7; 8; 9; 7] [1; 1; 2; 1] (Some (1, 3)%nat)) as (J & E & L & _ & D); try reflexivity; try discriminate.
  - intros p [<-|[<-|[<-|[]]]]; reflexivity.
  - intros ms' p a W Hp Ha. rewrite (demo_values _ W) in Hp. cbn in Ha. assert (a <> 0) by (destruct Ha as [<-|[<-|[]]]; lra).
    assert (sin 0 <> -1) by (rewrite sin_0; lra).
    destruct Hp as [<-|[<-|[<-|[]]]]; constructor; auto; lra.
  - exists J. split; [exact E|]. split; [exact L|]. intros k j Hk Hj. apply D; [exact Hk|exact Hj].
Qed.
Example C156_example :
  let fvec := residual [mkPart (poly_func 0) [5] [true]] [5] [1; 2; 3; 4] [6; 6; 4; 6] [1; 1; 1; 1] (Some (0, 3)%nat) in
  fvec = [6 - 5; 6 - 5; 4 - 5] /\ fit_covariance [[/ 3]] fvec [1; 2; 3; 4] [5] = [[/ 3]] /\ / 3 * reduced_scale fvec 1 = / 2.
Proof.
  cbv zeta. assert (E : residual [mkPart (poly_func 0) [5] [true]] [5] [1; 2; 3; 4] [6; 6; 4; 6] [1; 1; 1; 1] (Some (0, 3)%nat) = [6 - 5; 6 - 5; 4 - 5]).
  { unfold residual. rewrite cut_value. cbn. unfold model_at. cbn. f_equal; [field|f_equal; [field|f_equal; field]]. }
  rewrite E. split; [reflexivity|]. unfold fit_covariance, reduced_scale, sum_sq. cbn [map fold_right length Nat.sub]. split; [do 2 f_equal; cbn [INR]; lra|cbn [INR]; lra].
Qed.

(** C226: what an accepted fit leaves in the model (ModelCluster.fit, cleanfit:
    modelcluster.py:1010-1143, 1169-1232), from C37 and C40. *)
From Coq Require Import Permutation Sorted.
From Verif Require Import Prelude ModelCluster ModelClusterProofs ModelClusterProps.
Open Scope Z_scope.

Section Clean.
Context {P B Q : Type}.
Variable w : world P B Q.

(** A peak is not a number somewhere. *)
Definition broken (p : P) : Prop := w_has_nan w p = true.
(** A peak that may be removed, lies before the first point of the cluster, or at or behind
    its last, and stays below the uncertainty at every point. *)
Definition useless (r e : list Z) (p : P) : Prop :=
  w_removable w p = true /\
  match w_position w p with Some x => x < hd 0 r \/ last r 0 <= x | None => True end /\
  forall i v u, nth_error (w_pvalue w p r) i = Some v -> nth_error e i = Some u -> v < u.

Theorem C226_accepted_fit_is_clean :
  argsort_ok (w_argsort w) -> (forall x, w_rnd w x < 0 <-> x < 0) -> (forall p r, length (w_pvalue w p r) = length r) ->
  forall c justify ntrials fitbaseline estimate q,
    r_cluster c <> [] -> length (e_cluster c) = length (r_cluster c) ->
    let res := fit w c justify ntrials fitbaseline estimate in
    fr_out res = Ok (Some q) ->
    pos_sorted (w_position w) (c_model (fr_c res)) /\
    (* exactly the peaks as the optimiser left them, but for these two kinds *)
    exists gone, Permutation (fr_raw res) (c_model (fr_c res) ++ gone) /\
      (forall p, In p (c_model (fr_c res)) -> ~ broken p /\ ~ useless (r_cluster c) (e_cluster c) p) /\
      (forall p, In p gone -> broken p \/ useless (r_cluster c) (e_cluster c) p).
Proof.
  intros AS RO VL c justify ntrials fbl estimate q R E res H.
  destruct (C37_kept_model w AS c justify ntrials fbl estimate q H) as (sorted & n & PM & SO & CF). fold res in PM, CF.
  destruct (C40_cleanfit_exact w RO sorted (r_cluster c) (e_cluster c) SO R E (fun p => VL p (r_cluster c))) as (keep & K & CF').
  rewrite CF' in CF. assert (M : c_model (fr_c res) = filter keep sorted) by congruence. rewrite M. split.
  - clear - SO. unfold pos_sorted in *. induction SO as [|a l S IH F]; [constructor|]. cbn [filter]. destruct (keep a); [|exact IH].
    constructor; [exact IH|]. rewrite Forall_forall in *. intros x X. apply filter_In in X. now apply F.
  - exists (filter (fun p => negb (keep p)) sorted). split; [|split].
    + rewrite <- PM. clear. induction sorted as [|a l IH]; [constructor|]. cbn [filter]. destruct (keep a); cbn [negb].
      * now constructor.
      * etransitivity; [apply perm_skip, IH|]. apply Permutation_middle.
    + intros p I. apply filter_In in I. destruct I as [_ I].
      assert (D : ~ dropped w (r_cluster c) (e_cluster c) p) by (intros D; apply K in D; congruence).
      split; intros X; apply D; [left; exact X|right; exact X].
    + intros p I. apply filter_In in I. destruct I as [_ I]. apply negb_true_iff in I. apply K in I. exact I.
Qed.
End Clean.

(** The optimiser leaves a peak outside the data that does not rise above the uncertainty
    (removed), one like it that is protected (kept), and one that is not a number. *)
Definition wander : list xpeak -> option Z -> cluster xpeak Z -> nat -> (list xpeak * option Z) * result unit :=
  fun _ b _ _ => (([xp 9 1 true; xp 2 9 true; xp 8 1 false; (None, 1, false)], b), Ok tt).
Example C226_nonvacuous :
  let res := fit (xworld wander) xc1 false 0 false true in
  r_cluster xc1 <> [] /\ length (e_cluster xc1) = length (r_cluster xc1) /\ fr_out res = Ok (Some (-5)) /\ c_model (fr_c res) = [xp 2 9 true; xp 8 1 false] /\ (forall p r, length (w_pvalue (xworld wander) p r) = length r) /\ argsort_ok (w_argsort (xworld wander)).
Proof.
  repeat split; try reflexivity; try discriminate; try apply isort_ok. intros p r. cbn. unfold xvalue. apply map_length.
Qed.
Print Assumptions C226_accepted_fit_is_clean.

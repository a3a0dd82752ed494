(** Property C208: equality of DataClusters (dataclusters.py:87-104). *)
From Verif Require Import Prelude DataClusters DataClustersSpec DataClustersAdj DataClustersProofs DataClustersMore DataClustersExamples DataClustersProps.
Open Scope Z_scope.

(** np.array_equal *)
Fixpoint array_equal {A} (eqb : A -> A -> bool) (a b : list A) : bool :=
  match a, b with
  | [], [] => true
  | x :: a', y :: b' => eqb x y && array_equal eqb a' b'
  | _, _ => false
  end.
(** == of two optional attributes: None equals None only *)
Definition opt_eqb {A} (eqb : A -> A -> bool) (a b : option A) : bool :=
  match a, b with None, None => true | Some x, Some y => eqb x y | _, _ => false end.
Definition status_eqb (a b : status) : bool :=
  match a, b with INIT, INIT | READY, READY | CLUSTERING, CLUSTERING | DONE, DONE => true | _, _ => false end.
(** __eq__, 87-104; the constants INIT ... DONE (100-103) are the same for every object *)
Definition dc_eq (s t : dc) : bool :=
  array_equal Z.eqb (xs s) (xs t) && array_equal Z.eqb (ys s) (ys t) && array_equal Z.eqb (order s) (order t)
  && array_equal (fun p q => (fst p =? fst q) && (snd p =? snd q)) (clusters s) (clusters t)
  && (res s =? res t) && (cur s =? cur t)%nat && opt_eqb Nat.eqb (lastc s) (lastc t) && opt_eqb Z.eqb (lastp s) (lastp t)
  && status_eqb (st s) (st t).

Lemma array_equal_spec {A} (eqb : A -> A -> bool) : (forall x y, eqb x y = true <-> x = y) -> forall a b, array_equal eqb a b = true <-> a = b.
Proof.
  intros H. induction a as [|x a IH]; intros [|y b]; cbn; try (split; [discriminate|discriminate]); [tauto|].
  rewrite andb_true_iff, H, IH. split; [intros (-> & ->); reflexivity|intros E; injection E; auto].
Qed.
Lemma opt_eqb_spec {A} (eqb : A -> A -> bool) : (forall x y, eqb x y = true <-> x = y) -> forall a b, opt_eqb eqb a b = true <-> a = b.
Proof. intros H [x|] [y|]; cbn; try (split; discriminate); [|tauto]. rewrite H. split; [intros ->; reflexivity|intros E; now injection E]. Qed.

(** A program: what one can call on the object. *)
Inductive call := CNext | CReset | CMake | CCombine (g : list (list nat)).
Definition observe (rnd : Z -> Z) (s : dc) (c : call) : dc * result unit :=
  match c with
  | CNext => next rnd s
  | CReset => reset_clusters s
  | CMake => match makeclusters rnd (length (xs s)) s with Some (s', _, r) => (s', r) | None => (s, Ok tt) end
  | CCombine g => combine_clusters s g
  end.
Fixpoint history (rnd : Z -> Z) (s : dc) (l : list call) : list (result unit) * list (Z * Z) :=
  match l with
  | [] => ([], clusters s)
  | c :: r => let '(s', o) := observe rnd s c in let '(os, cl) := history rnd s' r in (o :: os, cl)
  end.

Lemma pair_eqb (p q : Z * Z) : (fst p =? fst q) && (snd p =? snd q) = true <-> p = q.
Proof. destruct p, q. cbn. rewrite andb_true_iff, !Z.eqb_eq. split; [intros (-> & ->); reflexivity|intros E; now injection E]. Qed.
Lemma status_eqb_spec a b : status_eqb a b = true <-> a = b.
Proof. destruct a, b; cbn; split; congruence. Qed.
Lemma dc_eq_spec u v : dc_eq u v = true <-> u = v.
Proof.
  destruct u as [x1 y1 o1 c1 r1 i1 lc1 lp1 s1], v as [x2 y2 o2 c2 r2 i2 lc2 lp2 s2]. unfold dc_eq. cbn [xs ys order clusters res cur lastc lastp st].
  rewrite !andb_true_iff, !(array_equal_spec _ Z.eqb_eq), (array_equal_spec _ pair_eqb), (opt_eqb_spec _ Nat.eqb_eq), (opt_eqb_spec _ Z.eqb_eq), Z.eqb_eq, Nat.eqb_eq, status_eqb_spec.
  split; [intros ((((((((-> & ->) & ->) & ->) & ->) & ->) & ->) & ->) & ->); reflexivity|]. intros E. injection E as -> -> -> -> -> -> -> -> ->. repeat split.
Qed.

(** Objects that compare equal agree in everything that can be read from them, now and after
    any sequence of calls; comparing is symmetric, and every object equals itself. *)
Theorem C208_equal_objects_behave_alike :
  forall rnd s t, dc_eq s t = true ->
    (forall l, history rnd s l = history rnd t l) /\
    (forall k, cut s k = cut t k) /\ (forall k, cluster_is_full s k = cluster_is_full t k) /\
    (forall i, find_nearest_cluster rnd s i = find_nearest_cluster rnd t i) /\
    (forall v, find_nearest_cluster2 rnd s v = find_nearest_cluster2 rnd t v) /\
    find_adjacent_clusters s = find_adjacent_clusters t /\ dc_eq t s = true /\ dc_eq s s = true.
Proof. intros rnd s t H. apply dc_eq_spec in H. subst t. repeat split; apply dc_eq_spec; reflexivity. Qed.

(** Objects made from different data, or from the same data with another resolution, or that
    are at different points of the clustering, differ. *)
Theorem C208_different_objects_differ :
  forall s t, dc_eq s t = true -> xs s = xs t /\ ys s = ys t /\ res s = res t /\ clusters s = clusters t /\ cur s = cur t /\ st s = st t.
Proof. intros s t H. apply dc_eq_spec in H. subst t. repeat split. Qed.

(** A reset object differs from a freshly made one, although both go on in the same way (C09). *)
Theorem C208_reset_is_fresh_refuted :
  forall rnd argsort x y r s s0,
    faithful rnd -> argsort_ok argsort -> increasing x -> x <> [] ->
    reach rnd argsort x y r s -> construct argsort x y r = Ok s0 ->
    dc_eq (fst (reset_clusters s)) s0 = false.
Proof.
  intros rnd argsort x y r s s0 H1 H2 H3 H4 H5 H6.
  destruct (C09_reset_restarts_same_run rnd argsort x y r s s0 H1 H2 H3 H4 H5 H6) as (s1 & E & L0 & L1 & _). rewrite E. cbn [fst].
  destruct (dc_eq s1 s0) eqn:D; [|reflexivity]. apply dc_eq_spec in D. subst s1. congruence.
Qed.

Example C208_nonvacuous :
  dc_eq (steps 3 (ex_new 12)) (steps 3 (ex_new 12)) = true /\ dc_eq (steps 3 (ex_new 12)) (steps 4 (ex_new 12)) = false /\
  dc_eq (ex_new 12) (ex_new 10) = false /\ dc_eq (fst (reset_clusters (steps 3 (ex_new 12)))) (ex_new 12) = false.
Proof. vm_compute. auto. Qed.

(** Model of the functions that prepare data for display: ModelCluster.plottable and
    plottable_residual (modelcluster.py:1348-1386), PeakExtraction.plot
    (peakextraction.py:270-304), ModelCovariance.prettypar and __str__
    (modelcluster.py:371-402), DataClusters.cluster_boundaries, plot and animate
    (dataclusters.py:449-510) and PeakStability.animate (peakstability.py:161-190).
    What matplotlib does with the data is not modelled. *)
From Coq Require Import Reals.
From Verif Require Import Prelude ModelCluster Residual Covariance DataClusters Stability.

(** ** ModelCluster *)
Section Cluster.
Open Scope R_scope.
(** The parts of a ModelCluster that are shown: peaks, baseline, data and the slice a:b
    (modelcluster.py:459-520).  Parts are those of Residual.v; real arithmetic. *)
Record mcluster := mkMc { mc_peaks : list part; mc_base : option part; mc_r : list R; mc_y : list R; mc_slice : nat * nat }.
Definition mc_rng (c : mcluster) : rng := Some (mc_slice c).
Definition mc_rc (c : mcluster) : list R := Residual.cut (mc_rng c) (mc_r c).
Definition mc_yc (c : mcluster) : list R := Residual.cut (mc_rng c) (mc_y c).
(** valuebl(), modelcluster.py:1304-1311 *)
Definition mc_valuebl (c : mcluster) : list R :=
  match mc_base c with None => repeat 0 (length (mc_rc c)) | Some b => Residual.cut (mc_rng c) (part_value b (mc_r c) (mc_rng c)) end.
(** value(), modelcluster.py:1281-1285 *)
Definition mc_value (c : mcluster) : list R :=
  match mc_peaks c with
  | [] => mc_valuebl c
  | _ => add_lists (mc_valuebl c) (Residual.cut (mc_rng c) (Residual.value (mc_peaks c) (mc_r c) (mc_rng c)))
  end.
Fixpoint sub_lists (a b : list R) : list R := match a, b with x :: a', y :: b' => x - y :: sub_lists a' b' | _, _ => [] end.
(** residual(), modelcluster.py:1315-1317 *)
Definition mc_residual (c : mcluster) : list R := sub_lists (mc_yc c) (mc_value c).
(** plottable, modelcluster.py:1363-1375: the list is first filled with the grid, then the
    entries 3, 5, ... are replaced. *)
Fixpoint put_curves (c : mcluster) (bl : list R) (i : nat) (ps : list part) (l : list (list R)) : list (list R) :=
  match ps with
  | [] => l
  | p :: rest => put_curves c bl (S i) rest (upd l (2 * i + 3) (add_lists bl (Residual.cut (mc_rng c) (part_value p (mc_r c) (mc_rng c)))))
  end.
Definition plottable (c : mcluster) (joined : bool) : list (list R) :=
  if joined then [mc_rc c; mc_yc c; mc_rc c; mc_value c]
  else put_curves c (mc_valuebl c) 0 (mc_peaks c) ([mc_rc c; mc_yc c] ++ repeat (mc_rc c) (2 * length (mc_peaks c))).
(** plottable_residual, modelcluster.py:1377-1386 *)
Definition plottable_residual (c : mcluster) : list (list R) := [mc_rc c; mc_residual c].

(** PeakExtraction.plot, peakextraction.py:283-304: the dictionary of all keywords is passed
    as [joined], and a dictionary is true if it has a member. *)
Inductive kwvalue := KTrue | KFalse.
Definition extraction_plot {K : Type} (extracted : mcluster) (kwds : list (K * kwvalue)) : list (list R) :=
  plottable extracted (match kwds with [] => false | _ => true end).
End Cluster.

(** ** ModelCovariance *)
Section Pretty.
Open Scope R_scope.
(** What prettypar formats with "%.5e (%.5e)", or the sentence (modelcluster.py:385-402).
    [i in self.ipmap] holds for numbers below the number of parameters. *)
Inductive shown := Undefined | Pair (value : R) (unc : cell).
Definition root (v : cell) : cell := match v with Num x => Num (sqrt x) | Other => Other end.
Definition prettypar (c : covar) (k : key) : result shown :=
  match cv_model c, cv_cov c with
  | Some _, Some _ =>
    do k' <- match k with
             | KInt z => if (z <? 0)%Z then Err KeyError else match ipmap c (Z.to_nat z) with Some _ => Ok k | None => Err KeyError end
             | KPar l m => match pmap c (l, m) with Some n => Ok (KInt (Z.of_nat n)) | None => Err KeyError end
             end;
    do v <- getvalue c k'; do x <- getcovariance c k' k'; Ok (Pair v (root x))
  | _, _ => Ok Undefined
  end.
(** __str__, modelcluster.py:371-380: the entries of every line *)
Fixpoint pretty_row (c : covar) (i : nat) (js : list nat) : result (list shown) :=
  match js with [] => Ok [] | j :: r => do a <- prettypar c (KPar i j); do b <- pretty_row c i r; Ok (a :: b) end.
Fixpoint pretty_rows (c : covar) (i : nat) (m : list cpart) : result (list (list shown)) :=
  match m with [] => Ok [] | p :: r => do a <- pretty_row c i (seq 0 (cp_npars p)); do b <- pretty_rows c (S i) r; Ok (a :: b) end.
Definition cov_str (c : covar) : result (option (list (list shown))) :=
  match cv_model c, cv_cov c with
  | Some m, Some _ => do l <- pretty_rows c 0 m; Ok (Some l)
  | _, _ => Ok None
  end.
End Pretty.

(** ** DataClusters *)
Section Boundaries.
Open Scope Z_scope.
(** np.mean of a slice of at most two numbers, times 2; None is NaN (an empty slice) *)
Definition mean2 (l : list Z) : option Z := match l with [a] => Some (2 * a) | [a; b] => Some (a + b) | _ => None end.
Definition pyslice (l : list Z) (a b : Z) : list Z := let '(i, j) := slice_bounds (length l) (Some a) (Some b) in ModelCluster.slice l i j.
(** np.unique: sorted, without repetitions, NaN last; it works on all numbers of a
    two-dimensional array. *)
Fixpoint insert_unique (v : option Z) (l : list (option Z)) : list (option Z) :=
  match l with
  | [] => [v]
  | w :: r =>
    match v, w with
    | Some a, Some b => if a <? b then v :: l else if a =? b then l else w :: insert_unique v r
    | Some _, None => v :: l
    | None, None => l
    | None, Some _ => w :: insert_unique v r
    end
  end.
Definition unique (l : list (option Z)) : list (option Z) := fold_right insert_unique [] l.
(** cluster_boundaries, dataclusters.py:449-459 (coordinates times 2) *)
Definition boundary_pairs (s : dc) : list (option Z * option Z) :=
  flat_map (fun c : Z * Z => [(mean2 (pyslice (xs s) (fst c - 1) (fst c + 1)), mean2 (pyslice (ys s) (fst c - 1) (fst c + 1)));
                              (mean2 (pyslice (xs s) (snd c) (snd c + 2)), mean2 (pyslice (ys s) (snd c) (snd c + 2)))]) (clusters s).
Definition cluster_boundaries (s : dc) : list (option Z) := unique (flat_map (fun p => [fst p; snd p]) (boundary_pairs s)).
(** plot, 461-477, and the body of the loop in animate, 494-505: b[0] of a number raises
    IndexError *)
Definition draw_boundaries (s : dc) : result unit := match cluster_boundaries s with [] => Ok tt | _ :: _ => Err IndexError end.
(** animate, 479-510: the state is left as it is when an exception is raised.  [fuel] bounds
    the number of steps. *)
Variable rnd : Z -> Z.
Fixpoint animate_loop (fuel : nat) (s : dc) : option (dc * result unit) :=
  match fuel with
  | O => None
  | S f =>
    match next rnd s with
    | (s', Ok _) => match draw_boundaries s' with Ok _ => animate_loop f s' | Err e => Some (s', Err e) end
    | (s', Err StopIteration) => Some (s', Ok tt)
    | (s', Err e) => Some (s', Err e)
    end
  end.
Definition animate (fuel : nat) (s : dc) : option (dc * result unit) :=
  match reset_clusters s with
  | (s1, Err e) => Some (s1, Err e)
  | (s1, Ok _) =>
    match animate_loop fuel s1 with
    | None => None
    | Some (s2, Err e) => Some (s2, Err e)
    | Some (s2, Ok _) => Some (mkdc (xs s2) (ys s2) (order s2) (clusters s) (DataClusters.res s2) (cur s) (lastc s) (lastp s) (st s), Ok tt)
    end
  end.
End Boundaries.

(** ** PeakStability *)
Section Animate.
Context {P B Q D X : Type}.
Variable w : world P B Q.
Variable resample : @ppe P B X -> D -> result (array * array * array).
(** drawing (peakstability.py:178-180, 183, 112-129) reads the state only, and may raise *)
Variable draw : @stab P B D X -> result unit.
Fixpoint show_all (s : @stab P B D X) (l : list Z) : stab * result unit :=
  match l with
  | [] => (s, Ok tt)
  | i :: r =>
    match setcurrent w resample s (Some i) with
    | (s1, Err e) => (s1, Err e)
    | (s1, Ok _) => match draw s1 with Err e => (s1, Err e) | Ok _ => show_all s1 r end
    end
  end.
(** animate, peakstability.py:161-190 *)
Definition animate_stab (s : @stab P B D X) (results : option (list Z)) : stab * result unit :=
  let l := match results with Some l => l | None => map Z.of_nat (seq 0 (length (s_results s))) end in
  match setcurrent w resample s (Some 0%Z) with
  | (s1, Err e) => (s1, Err e)
  | (s1, Ok _) =>
    match draw s1 with
    | Err e => (s1, Err e)
    | Ok _ => match show_all s1 l with (s2, Err e) => (s2, Err e) | (s2, Ok _) => setcurrent w resample s2 (s_current s) end
    end
  end.
End Animate.

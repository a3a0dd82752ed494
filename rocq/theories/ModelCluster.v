(** Model of modelcluster.py, class ModelCluster (construction, change_slice,
    npars, replacepeaks, deletepeak, estimatepeak, fit, contingent_fit, cleanfit,
    reduce_to, join_adjacent) and of Peaks.sort / Peaks.argsort (peaks/base.py).

    Numbers are integers: a finite set of doubles can be scaled to integers; [rnd]
    is the rounding of each subtraction.  NaN positions are [None].
    Peaks P and baselines B are abstract values (their content); the optimiser,
    the estimation heuristic, the quality statistic, the growth test and the value
    of a peak or baseline on a grid are arbitrary functions.
    Object identity matters in three places and is modelled there: numpy arrays
    carry an identity [aid] (compared by "is" in join_adjacent), and [fit] also
    reports the final content of the list object and of the baseline object that
    the cluster held on entry, because the optimiser mutates them in place while
    the cluster may be given copies. *)
From Verif Require Import Prelude.
Open Scope Z_scope.

Record array := mkArr { aid : nat; adat : list Z }.

Definition slice {A} (l : list A) (a b : nat) : list A := firstn (b - a) (skipn a l).

(** Python [slice(start, stop)] resolved against a length (step 1). *)
Definition clamp (n s : Z) : Z := if s <? 0 then Z.max (s + n) 0 else Z.min s n.
Definition slice_bounds (n : nat) (start stop : option Z) : nat * nat :=
  let n' := Z.of_nat n in
  let a := match start with None => 0 | Some s => clamp n' s end in
  let b := match stop with None => n' | Some s => clamp n' s end in
  (Z.to_nat a, Nat.max (Z.to_nat a) (Z.to_nat b)).
(** [l[start:stop] = new] *)
Definition assign_slice {A} (l : list A) (a b : nat) (new : list A) : list A :=
  firstn a l ++ new ++ skipn b l.

(** builtin max() of a sequence. *)
Definition pymax (l : list Z) : result Z :=
  match l with [] => Err ValueError | a :: r => Ok (fold_left (fun m x => if m <? x then x else m) r a) end.

(** numpy order on positions: NaN (None) is the largest. *)
Definition pos_le (a b : option Z) : bool :=
  match a, b with _, None => true | None, Some _ => false | Some x, Some y => x <=? y end.
(** the comparison [a > b] (False when either is NaN). *)
Definition pos_gt (a b : option Z) : bool :=
  match a, b with Some x, Some y => y <? x | _, _ => false end.
(** [a == b]. *)
Definition pos_eq (a b : option Z) : bool :=
  match a, b with Some x, Some y => x =? y | _, _ => false end.

(** [pos.searchsorted(v)] on a sorted array: the leading elements below v. *)
Fixpoint searchsorted_pos (l : list (option Z)) (v : Z) : nat :=
  match l with
  | Some a :: r => if a <? v then S (searchsorted_pos r v) else 0%nat
  | _ => 0%nat
  end.

Definition pick {A} (l : list A) (idx : list nat) : list A :=
  flat_map (fun i => match nth_error l i with Some a => [a] | None => [] end) idx.

(** ModelCluster attributes, modelcluster.py:464-508; r_cluster, y_cluster and
    error_cluster are always the slices of the arrays (890-893, 531). *)
Record cluster {P B : Type} := mkC {
  c_model : list P; c_base : option B;
  c_r : array; c_y : array; c_e : array;
  c_start : nat; c_stop : nat;
  c_never : bool; c_last : nat; c_em : nat; c_pf : list nat }.
Arguments cluster : clear implicits.
Arguments mkC {P B}. Arguments c_model {P B}. Arguments c_base {P B}. Arguments c_r {P B}.
Arguments c_y {P B}. Arguments c_e {P B}. Arguments c_start {P B}. Arguments c_stop {P B}.
Arguments c_never {P B}. Arguments c_last {P B}. Arguments c_em {P B}. Arguments c_pf {P B}.

(** Everything that is not modelled in this file, as one record of arbitrary
    functions: the peak and baseline classes, numpy's argsort, the statistic, the
    estimation heuristic, the optimiser (ModelParts.fit on the peaks and, when
    given, the baseline: it changes the objects in place and may then raise), the
    midpoint 0.5*(a+b) and Peaks.match_at. *)
Record world {P B Q : Type} := mkWorld {
  w_rnd : Z -> Z;
  w_position : P -> option Z;
  w_removable : P -> bool;
  w_has_nan : P -> bool;                 (* np.isnan(p.pars).any() *)
  w_pvalue : P -> list Z -> list Z;      (* peak.value on a grid *)
  w_p_npars : bool -> P -> nat;          (* npars(count_fixed) *)
  w_b_npars : bool -> B -> nat;
  w_blvalue : B -> list Z -> list Z;
  w_bl_eqb : B -> B -> bool;             (* ModelPart.__eq__ *)
  w_argsort : list (option Z) -> list nat;
  w_func_npars : nat -> nat;             (* npars of a peak function *)
  w_quality : cluster P B -> Q;          (* quality() *)
  w_qlt : Q -> Q -> bool;                (* comparison of evaluators *)
  w_growth : Q -> cluster P B -> nat -> bool;   (* growth_justified *)
  w_estimate : cluster P B -> result (option P);
  w_engine : list P -> option B -> cluster P B -> nat -> (list P * option B) * result unit;
  w_mid : Z -> Z -> Z;
  w_match_at : Z -> Z -> list P -> list P }.
Arguments world : clear implicits.
Arguments mkWorld {P B Q}.
Arguments w_rnd {P B Q}.
Arguments w_position {P B Q}.
Arguments w_removable {P B Q}.
Arguments w_has_nan {P B Q}.
Arguments w_pvalue {P B Q}.
Arguments w_p_npars {P B Q}.
Arguments w_b_npars {P B Q}.
Arguments w_blvalue {P B Q}.
Arguments w_bl_eqb {P B Q}.
Arguments w_argsort {P B Q}.
Arguments w_func_npars {P B Q}.
Arguments w_quality {P B Q}.
Arguments w_qlt {P B Q}.
Arguments w_growth {P B Q}.
Arguments w_estimate {P B Q}.
Arguments w_engine {P B Q}.
Arguments w_mid {P B Q}.
Arguments w_match_at {P B Q}.

Section ModelCluster.
Context {P B Q : Type}.
Variable w : world P B Q.
Notation rnd := (w_rnd w).
Notation position := (w_position w).
Notation removable := (w_removable w).
Notation has_nan := (w_has_nan w).
Notation pvalue := (w_pvalue w).
Notation p_npars := (w_p_npars w).
Notation b_npars := (w_b_npars w).
Notation blvalue := (w_blvalue w).
Notation bl_eqb := (w_bl_eqb w).
Notation argsort := (w_argsort w).
Notation func_npars := (w_func_npars w).
Notation quality := (w_quality w).
Notation qlt := (w_qlt w).
Notation growth := (w_growth w).
Notation estimate_fn := (w_estimate w).
Notation engine := (w_engine w).
Notation mid := (w_mid w).
Notation match_at := (w_match_at w).
Notation cluster := (cluster P B).

Definition set_model (c : cluster) m : cluster := mkC m (c_base c) (c_r c) (c_y c) (c_e c) (c_start c) (c_stop c) (c_never c) (c_last c) (c_em c) (c_pf c).
Definition set_base (c : cluster) b : cluster := mkC (c_model c) b (c_r c) (c_y c) (c_e c) (c_start c) (c_stop c) (c_never c) (c_last c) (c_em c) (c_pf c).
Definition set_last (c : cluster) n : cluster := mkC (c_model c) (c_base c) (c_r c) (c_y c) (c_e c) (c_start c) (c_stop c) (c_never c) n (c_em c) (c_pf c).
Definition set_y (c : cluster) y : cluster := mkC (c_model c) (c_base c) (c_r c) y (c_e c) (c_start c) (c_stop c) (c_never c) (c_last c) (c_em c) (c_pf c).
Definition r_cluster (c : cluster) := slice (adat (c_r c)) (c_start c) (c_stop c).
Definition y_cluster (c : cluster) := slice (adat (c_y c)) (c_start c) (c_stop c).
Definition e_cluster (c : cluster) := slice (adat (c_e c)) (c_start c) (c_stop c).
Definition c_size (c : cluster) := length (r_cluster c).

Definition vsub (a b : list Z) : list Z := map (fun p => rnd (fst p - snd p)) (combine a b).
(** valuebl with explicit r, modelcluster.py:1289-1315. *)
Definition valuebl (b : option B) (r : list Z) : list Z :=
  match b with None => map (fun _ => 0) r | Some b => blvalue b r end.
(** y_data_nobl, modelcluster.py:907. *)
Definition y_nobl (b : option B) (r y : list Z) : list Z := vsub y (valuebl b r).

(** [max(nobl[a:b] - err[a:b]) < 0], modelcluster.py:910, 915, 919. *)
Definition all_below (nobl err : list Z) (a b : nat) : result bool :=
  do m <- pymax (vsub (slice nobl a b) (slice err a b)); Ok (m <? 0).

(** change_slice, modelcluster.py:880-922, for slices start:stop of nonnegative
    integers; [old] is the previous slice (None during construction). *)
Definition change_slice_from (old : option (nat * nat)) (c : cluster) (a b : nat) : cluster * result unit :=
  let c1 := mkC (c_model c) (c_base c) (c_r c) (c_y c) (c_e c) a b (c_never c) (c_last c) (c_em c) (c_pf c) in
  let with_never v := mkC (c_model c1) (c_base c1) (c_r c1) (c_y c1) (c_e c1) a b v (c_last c1) (c_em c1) (c_pf c1) in
  let nobl := y_nobl (c_base c) (adat (c_r c)) (adat (c_y c)) in
  let err := adat (c_e c) in
  match old with
  | None => match all_below nobl err a b with Ok v => (with_never v, Ok tt) | Err e => (c1, Err e) end
  | Some (oa, ob) =>
    match (if c_never c && (a <? oa)%nat then all_below nobl err a oa else Ok (c_never c)) with
    | Err e => (c1, Err e)
    | Ok v1 =>
      match (if v1 && (ob <? b)%nat then all_below nobl err ob b else Ok v1) with
      | Err e => (with_never v1, Err e)
      | Ok v2 => (with_never v2, Ok tt)
      end
    end
  end.
Definition change_slice (c : cluster) (a b : nat) := change_slice_from (Some (c_start c, c_stop c)) c a b.

(** Explicit creation, modelcluster.py:490-508 (cluster_slice None is 0:len). *)
Definition make_cluster (m : list P) (bl : option B) (r y e : array) (sl : option (nat * nat)) (em : nat) (pf : list nat) : result cluster :=
  let '(a, b) := match sl with None => (0%nat, length (adat r)) | Some s => s end in
  match change_slice_from None (mkC m bl r y e 0 0 false 0 em pf) a b with
  | (c, Ok _) => Ok c
  | (_, Err e) => Err e
  end.
(** Copy of a ModelCluster, modelcluster.py:473-489, 510-515: last_fit_size is 0 again. *)
Definition copy_cluster (c : cluster) : result cluster :=
  make_cluster (c_model c) (c_base c) (c_r c) (c_y c) (c_e c) (Some (c_start c, c_stop c)) (c_em c) (c_pf c).

(** npars, modelcluster.py:924-942. *)
Definition list_sum_nat (l : list nat) := fold_right Nat.add 0%nat l.
Definition model_npars (cf : bool) (m : list P) : nat := list_sum_nat (map (p_npars cf) m).
Definition npars (c : cluster) (count_baseline count_fixed : bool) : nat :=
  (model_npars count_fixed (c_model c) +
   if count_baseline then match c_base c with None => 0 | Some b => b_npars count_fixed b end else 0)%nat.

(** Peaks.sort, peaks/base.py:205-210. *)
Definition sort_peaks (m : list P) : list P := pick m (argsort (map position m)).
(** Peaks.argsort, peaks/base.py:136-150. *)
Fixpoint ascending (l : list (option Z)) : bool :=
  match l with
  | a :: r => match r with [] => true | b :: _ => negb (pos_gt a b) && ascending r end
  | [] => true
  end.
Definition peaks_argsort (m : list P) : list nat :=
  let k := map position m in if ascending k then seq 0 (length k) else argsort k.

(** replacepeaks, modelcluster.py:944-963. *)
Definition replacepeaks (m : list P) (new : list P) (start stop : option Z) : list P * result unit :=
  let '(a, b) := slice_bounds (length m) start stop in
  if existsb (fun p => negb (removable p)) (slice m a b) then (m, Err ValueError)
  else (sort_peaks (assign_slice m a b new), Ok tt).
(** deletepeak, modelcluster.py:965-977. *)
Definition deletepeak (m : list P) (idx : Z) := replacepeaks m [] (Some idx) (Some (idx + 1)).

(** cleanfit, modelcluster.py:1169-1224, on (model, r_cluster, error_cluster):
    the removed indices, then deletion from the back (1222-1223). *)
Definition removed_indices (m : list P) (rc ec : list Z) : result (list nat) :=
  match rc with
  | [] => Err IndexError
  | r0 :: _ =>
    let pos := map position m in
    let left_idx := searchsorted_pos pos r0 in
    let right_idx := searchsorted_pos pos (last rc r0) in
    let outside := seq 0 left_idx ++ seq right_idx (length m - right_idx) in
    let silent i := match nth_error m i with
                    | Some p => removable p && match pymax (vsub (pvalue p rc) ec) with Ok v => v <? 0 | Err _ => false end
                    | None => false end in
    let nan i := match nth_error m i with Some p => has_nan p | None => false end in
    let bad i := (existsb (Nat.eqb i) outside && silent i) || nan i in
    Ok (filter bad (seq 0 (length m)))
  end.
Definition del_at {A} (l : list A) (i : nat) : list A := firstn i l ++ skipn (S i) l.
Definition cleanfit (m : list P) (rc ec : list Z) : result (list P * nat) :=
  do rm <- removed_indices m rc ec;
  Ok (fold_left del_at (rev rm) m, length rm).

(** estimatepeak, modelcluster.py:979-1008. *)
Definition estimatepeak (c : cluster) : cluster * result bool :=
  match c_pf c with
  | [] => (c, Err IndexError)
  | _ =>
    match estimate_fn c with
    | Err e => (c, Err e)
    | Ok None => (c, Ok false)
    | Ok (Some p) =>
      let '(m, r) := replacepeaks (c_model c) [p] (Some 0) (Some 0) in
      match r with Err e => (c, Err e) | Ok _ => (set_model c m, Ok true) end
    end
  end.

(** [min([p.npars for p in self.peak_funcs])] *)
Definition min_npars (pf : list nat) : result nat :=
  match pf with [] => Err ValueError | f :: r => Ok (fold_left (fun m g => Nat.min m (func_npars g)) r (func_npars f)) end.

Record fitres := mkFitRes {
  fr_c : cluster;            (* the cluster afterwards *)
  fr_list : list P;          (* content of the list object that was the model on entry *)
  fr_base : option B;        (* content of the baseline object held on entry *)
  fr_raw : list P;           (* what the optimiser left in the peak objects *)
  fr_out : result (option Q) }.

(** fit, modelcluster.py:1010-1143.  The test at 1086 is repeated at 1115 after the
    optimiser ran; fitting never changes which parameters are free (C13), so it is
    evaluated once here. *)
Definition fit (c : cluster) (justify : bool) (ntrials : nat) (fitbaseline estimate : bool) : fitres :=
  let same c r := mkFitRes c (c_model c) (c_base c) (c_model c) r in
  if c_never c then same c (Ok None) else
  match
    (match c_model c with
     | [] => if estimate then
               match estimatepeak c with
               | (c1, Ok _) => (c1, None)
               | (c1, Err EstimationError) => (c1, Some (Ok None))
               | (c1, Err e) => (c1, Some (Err e))
               end
             else (c, Some (Ok None))
     | _ => (c, None)
     end)
  with
  | (c1, Some r) => same c1 r
  | (c1, None) =>
    let orig_qual := quality c1 in
    let c2 := set_last c1 (c_size c1) in
    let fb := fitbaseline && match c_base c2 with None => false | Some b => (0 <? b_npars false b)%nat end in
    match engine (c_model c2) (if fb then c_base c2 else None) c2 ntrials with
    | ((ps, ob), out) =>
      let bl' := if fb then ob else c_base c2 in
      match out with
      | Err FitError => mkFitRes c2 ps bl' ps (Ok None)
      | Err e => mkFitRes (set_base (set_model c2 ps) bl') ps bl' ps (Err e)
      | Ok _ =>
        let ps1 := sort_peaks ps in
        match cleanfit ps1 (r_cluster c2) (e_cluster c2) with
        | Err e => mkFitRes (set_base (set_model c2 ps1) bl') (if fb then ps else ps1) bl' ps (Err e)
        | Ok (ps2, _) =>
          let c3 := set_base (set_model c2 ps2) bl' in
          let keep := if fb then ps else ps2 in
          let new_qual := quality c3 in
          if qlt new_qual orig_qual then mkFitRes c2 keep bl' ps (Ok None)
          else if justify && (length ps2 =? 1)%nat && (0 <? length (c_model c1))%nat then
            match min_npars (c_pf c) with
            | Err e => mkFitRes c3 keep bl' ps (Err e)
            | Ok n => if growth new_qual c3 n then mkFitRes c2 keep bl' ps (Ok None)
                      else mkFitRes c3 keep bl' ps (Ok (Some new_qual))
            end
          else mkFitRes c3 keep bl' ps (Ok (Some new_qual))
        end
      end
    end
  end.

(** contingent_fit, modelcluster.py:1145-1167; the threshold is the fraction
    num/den (den > 0) and [float(size)/last >= num/den] is computed exactly. *)
Definition fit_due (c : cluster) (minpoints num den : Z) : bool :=
  negb (c_never c) &&
  (((0 <? c_last c)%nat && (num * Z.of_nat (c_last c) <=? Z.of_nat (c_size c) * den))
   || ((c_last c =? 0)%nat && (minpoints <=? Z.of_nat (c_size c)))).
Definition contingent_fit (c : cluster) (minpoints num den : Z) : fitres :=
  if fit_due c minpoints num den then fit c true 0 false true
  else mkFitRes c (c_model c) (c_base c) (c_model c) (Ok None).

(** The loop at 849-857: index i from the back; [ids] is the sort order, [nleft] the
    number of peaks of the left model. *)
Definition join_step (border : Z) (ids : list nat) (nleft : nat) (m : list P) (i : nat) : list P :=
  let pos k := match nth_error m k with Some p => position p | None => None end in
  let id := nth i ids 0%nat in
  if pos_eq (pos i) (Some border) && (0 <? i)%nat && pos_eq (pos (i - 1)%nat) (Some border) then del_at m i
  else if negb (id =? i)%nat then
    if (pos_gt (pos i) (Some border) && (id <? nleft)%nat) && (pos_gt (Some border) (pos i) && (nleft <=? id)%nat)
    then del_at m i else m
  else m.
Definition join_model (left right : list P) (border : Z) : list P :=
  let both := left ++ right in
  let ids := peaks_argsort both in
  let sorted := pick both ids in
  fold_left (join_step border ids (length left)) (rev (seq 0 (length sorted))) sorted.

Definition opt_bl_eqb (a b : option B) : bool :=
  match a, b with None, None => true | Some x, Some y => bl_eqb x y | _, _ => false end.
Definition union_nat (a b : list nat) : list nat := nodup Nat.eq_dec (a ++ b).

(** join_adjacent, modelcluster.py:782-878 (for match_at see MatchAt.v). *)
Definition join_adjacent (m1 m2 : cluster) : result cluster :=
  if negb (aid (c_r m1) =? aid (c_r m2))%nat then Err ValueError else
  if negb (aid (c_y m1) =? aid (c_y m2))%nat then Err ValueError else
  if negb (aid (c_e m1) =? aid (c_e m2))%nat then Err ValueError else
  if negb (c_em m1 =? c_em m2)%nat then Err ValueError else
  if negb (opt_bl_eqb (c_base m1) (c_base m2)) then Err ValueError else
  let n := length (adat (c_r m1)) in
  let ids c := (Nat.min (c_start c) n, Nat.min (c_stop c) n) in
  let '(lc, rc) := if (fst (ids m1) <? fst (ids m2))%nat then (m1, m2) else (m2, m1) in
  if negb (fst (ids rc) =? snd (ids lc))%nat then Err ValueError else
  let s := (fst (ids lc), snd (ids rc)) in
  do r1 <- pyget (adat (c_r lc)) (Z.of_nat (snd (ids lc)) - 1);
  do r2 <- pyget (adat (c_r rc)) (Z.of_nat (fst (ids rc)));
  do y1 <- pyget (adat (c_y lc)) (Z.of_nat (snd (ids lc)) - 1);
  do y2 <- pyget (adat (c_y rc)) (Z.of_nat (fst (ids rc)));
  let new_model :=
    if (0 <? length (c_model m1))%nat && (0 <? length (c_model m2))%nat
    then match_at (mid r1 r2) (mid y1 y2) (join_model (c_model lc) (c_model rc) (mid r1 r2))
    else if (0 <? length (c_model m1))%nat then c_model m1 else c_model m2 in
  make_cluster new_model (c_base m1) (c_r m1) (c_y m1) (c_e m1) (Some s) (c_em m1) (union_nat (c_pf m1) (c_pf m2)).

End ModelCluster.

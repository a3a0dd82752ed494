(** Model of src/diffpy/srmise/dataclusters.py (class DataClusters).

    Numbers: coordinates and the resolution are integers (a finite set of
    finite doubles can be scaled to integers by a common power of two; the
    code only subtracts and compares).  The result of every floating-point
    subtraction passes through [rnd], so that the theorems cover rounding.
    NaN coordinates are not modelled. *)
From Verif Require Import Prelude.
Open Scope Z_scope.

(** dataclusters.py:73-76, the four iterator states. *)
Inductive status := INIT | READY | CLUSTERING | DONE.

(** The data members of a DataClusters object (dataclusters.py:107-126). *)
Record dc := mkdc {
  xs : list Z;                  (* self.x *)
  ys : list Z;                  (* self.y *)
  order : list Z;               (* self.data_order: indices, y ascending *)
  clusters : list (Z * Z);      (* self.clusters: inclusive index pairs *)
  res : Z;                      (* self.res *)
  cur : nat;                    (* self.current_idx *)
  lastc : option nat;           (* self.lastcluster_idx *)
  lastp : option Z;             (* self.lastpoint_idx *)
  st : status                   (* self.status *)
}.

Section Model.
(** Floating-point rounding of a difference, and numpy's [argsort] (the
    default algorithm is not stable, so any sorting permutation is allowed;
    see [argsort_ok] in DataClustersSpec.v). *)
Variable rnd : Z -> Z.
Variable argsort : list Z -> list Z.

(** dataclusters.py:115-126 [_clear]. *)
Definition clear_state : dc := mkdc [] [] [] [] 0 0 None None INIT.

(** dataclusters.py:139-175 [_setdata] (after [_clear], lines 77-78).  The
    Python type check on array-ness is not modelled. *)
Definition construct (x y : list Z) (r : Z) : result dc :=
  if negb (Nat.eqb (length x) (length y)) then Err ValueError
  else if r <? 0 then Err ValueError
  else if Nat.eqb (length x) 0 then Ok (mkdc x y [] [] r 0 None None INIT)
  else
    let o := argsort y in
    do top <- pyget o (-1);
    Ok (mkdc x y o [(top, top)] r (length o - 1) None (Some top) READY).

(** dataclusters.py:128-137 [reset_clusters].  Unlike the constructor it sets
    lastcluster_idx to 0, and on an empty object [data_order[-1]] raises. *)
Definition reset_clusters (s : dc) : dc * result unit :=
  match pyget (order s) (-1) with
  | Err e => (s, Err e)
  | Ok top =>
      (mkdc (xs s) (ys s) (order s) [(top, top)] (res s) (length (order s) - 1)
            (Some 0%nat) (Some top)
            (match st s with INIT => INIT | _ => READY end), Ok tt)
  end.

(** [self.clusters.flatten()]. *)
Fixpoint flatten (cs : list (Z * Z)) : list Z :=
  match cs with [] => [] | (a, b) :: r => a :: b :: flatten r end.

(** dataclusters.py:267-315 [find_nearest_cluster].  [None] is returned when
    there are no clusters. *)
Definition find_nearest_cluster (s : dc) (idx : Z) : result (option (nat * Z)) :=
  match st s with
  | INIT => Err GenericException                                    (* 287-288 *)
  | _ =>
    let flat := flatten (clusters s) in                             (* 290 *)
    if Nat.eqb (length flat) 0 then Ok None                         (* 291-292 *)
    else
      let flat_idx := searchsorted_left flat idx in                 (* 294 *)
      let near_idx := Nat.div flat_idx 2 in                         (* 295 *)
      if Nat.eqb flat_idx (length flat) then                        (* 297-299 *)
        do xi <- pyget (xs s) idx;
        do c <- pyget (clusters s) (-1);
        do xc <- pyget (xs s) (snd c);
        Ok (Some ((near_idx - 1)%nat, rnd (xi - xc)))
      else
        do fi <- pyget flat (Z.of_nat flat_idx);
        if (fi =? idx) || Nat.eqb (Nat.modulo flat_idx 2) 1 then    (* 300-302 *)
          Ok (Some (near_idx, 0))
        else if Nat.eqb flat_idx 0 then                             (* 303-305 *)
          do xi <- pyget (xs s) idx;
          do c <- pyget (clusters s) 0;
          do xc <- pyget (xs s) (fst c);
          Ok (Some (near_idx, rnd (xi - xc)))
        else                                                        (* 308-315 *)
          do xi <- pyget (xs s) idx;
          do cl <- pyget (clusters s) (Z.of_nat near_idx - 1);
          do cr <- pyget (clusters s) (Z.of_nat near_idx);
          do xl <- pyget (xs s) (snd cl);
          do xr <- pyget (xs s) (fst cr);
          let d0 := rnd (xi - xl) in
          let d1 := rnd (xi - xr) in
          if d0 <? Z.abs d1 then Ok (Some ((near_idx - 1)%nat, d0))
          else Ok (Some (near_idx, d1))
  end.

(** dataclusters.py:237-265 [find_nearest_cluster2] ([searchsorted] on the
    data coordinates, then the index query). *)
Definition find_nearest_cluster2 (s : dc) (v : Z) : result (option (nat * Z)) :=
  match st s with
  | INIT => Err GenericException
  | _ =>
    let idx := Z.of_nat (searchsorted_left (xs s) v) in
    if (0 <? idx) || (Z.of_nat (length (xs s)) <=? idx) then
      find_nearest_cluster s idx
    else
      do xi <- pyget (xs s) idx;
      do xp <- pyget (xs s) (idx - 1);
      if rnd (xi - v) <? rnd (v - xp) then find_nearest_cluster s idx
      else find_nearest_cluster s (idx - 1)
  end.

(** dataclusters.py:193-198, the search loop of [__next__]: walk down
    data_order while the candidate is at distance 0.  [t] is [test_idx]
    (unbound before the first iteration), [nr] is [nearest_cluster]. *)
Fixpoint scan (s : dc) (c : nat) (t : option Z) (nr : nat * Z)
  : result (nat * option Z * (nat * Z)) :=
  if snd nr =? 0 then
    match c with
    | O => Ok (O, t, nr)
    | S c' =>
        do ti <- pyget (order s) (Z.of_nat c');
        do nr' <- find_nearest_cluster s ti;
        match nr' with
        | None => Err TypeError          (* None[1] *)
        | Some nr'' => scan s c' (Some ti) nr''
        end
    end
  else Ok (c, t, nr).

(** dataclusters.py:177-229 [__next__]; the state is returned even when the
    call raises because status and current_idx are updated first. *)
Definition next (s : dc) : dc * result unit :=
  match st s with
  | INIT => (s, Err GenericException)                               (* 184-185 *)
  | DONE => (s, Err StopIteration)                                  (* 189-190 *)
  | _ =>
    let s1 := mkdc (xs s) (ys s) (order s) (clusters s) (res s) (cur s)
                   (lastc s) (lastp s) CLUSTERING in                (* 187-188 *)
    match scan s1 (cur s) None (0%nat, 0) with
    | Err e => (s1, Err e)
    | Ok (c', t, (nc, d)) =>
      let st' := if Nat.eqb c' 0 then DONE else CLUSTERING in       (* 201-202 *)
      let s2 := mkdc (xs s) (ys s) (order s) (clusters s) (res s) c'
                     (lastc s) (lastp s) st' in
      if Nat.eqb c' 0 && (d =? 0) then (s2, Err StopIteration)      (* 203-205 *)
      else
      match t with
      | None => (s2, Err GenericException)       (* test_idx unbound *)
      | Some ti =>
        if Z.abs d <=? res s then                                   (* 209-215 *)
          match nth_error (clusters s) nc with
          | None => (s2, Err IndexError)
          | Some (lo, hi) =>
            let c2 := if ti <? lo then (ti, hi) else (lo, ti) in
            (mkdc (xs s) (ys s) (order s) (upd (clusters s) nc c2) (res s) c'
                  (Some nc) (Some ti) st', Ok tt)
          end
        else                                                        (* 216-228 *)
          let k := if d <? 0 then nc else S nc in
          (mkdc (xs s) (ys s) (order s) (insert_at (clusters s) k (ti, ti)) (res s) c'
                (Some k) (Some ti) st', Ok tt)
      end
    end
  end.

(** dataclusters.py:231-235 [makeclusters]: [for i in self: pass].  [fuel]
    bounds the number of [next] calls; [None] = fuel exhausted (excluded by
    the termination theorem).  The nat counts successful steps. *)
Fixpoint makeclusters (fuel : nat) (s : dc) : option (dc * nat * result unit) :=
  match fuel with
  | O => None
  | S f =>
    match next s with
    | (s', Ok _) =>
        match makeclusters f s' with
        | Some (s'', k, r) => Some (s'', S k, r)
        | None => None
        end
    | (s', Err StopIteration) => Some (s', O, Ok tt)
    | (s', Err e) => Some (s', O, Err e)
    end
  end.

End Model.

(** dataclusters.py:317-341 [cluster_is_full], for a valid non-negative
    cluster index. *)
Definition cluster_is_full (s : dc) (k : nat) : result bool :=
  match nth_error (clusters s) k with
  | None => Err IndexError
  | Some (lo, hi) =>
    let low := match k with
               | O => 0
               | S k' => match nth_error (clusters s) k' with
                         | Some (_, h) => h + 1 | None => 0 end
               end in
    let high := match nth_error (clusters s) (S k) with
                | Some (l, _) => l - 1
                | None => Z.of_nat (length (order s)) - 1
                end in
    Ok ((lo =? low) && (hi =? high))
  end.

(** dataclusters.py:434-447 [cut] for a scalar non-negative index: the
    [start, stop) pair of the slice. *)
Definition cut (s : dc) (k : nat) : result (Z * Z) :=
  match nth_error (clusters s) k with
  | None => Err IndexError
  | Some (lo, hi) => Ok (lo, hi + 1)
  end.

(** [self.clusters[i+1,0] - self.clusters[i,1] == 1] for positions in range
    (used at 381, 417, 427). *)
Definition touch (cs : list (Z * Z)) (i : nat) : bool :=
  match nth_error cs i, nth_error cs (S i) with
  | Some a, Some b => fst b - snd a =? 1
  | _, _ => false
  end.

(** dataclusters.py:415-419, inner loop skipping non-touching pairs. *)
Fixpoint skip_gap (fuel : nat) (cs : list (Z * Z)) (l : nat) : nat :=
  match fuel with
  | O => l
  | S f => if Nat.ltb l (length cs - 1) && negb (touch cs l)
           then skip_gap f cs (S l) else l
  end.

(** dataclusters.py:425-429, inner loop extending a run of touching pairs. *)
Fixpoint grow_run (fuel : nat) (cs : list (Z * Z)) (r : nat) : nat :=
  match fuel with
  | O => r
  | S f => if Nat.ltb r (length cs - 1) && touch cs r
           then grow_run f cs (S r) else r
  end.

(** dataclusters.py:411-431, outer loop; runs are (left_idx, right_idx). *)
Fixpoint adj_loop (fuel : nat) (cs : list (Z * Z)) (l : nat) : list (nat * nat) :=
  match fuel with
  | O => []
  | S f =>
    if Nat.ltb l (length cs - 1) then
      let l' := skip_gap (length cs) cs l in
      let r := grow_run (length cs) cs l' in
      (if Nat.ltb l' r then [(l', r)] else []) ++ adj_loop f cs (S r)
    else []
  end.

Definition adjacent_runs (cs : list (Z * Z)) : list (nat * nat) :=
  adj_loop (length cs) cs 0.

(** [np.array(seq of sequences)]: with numpy >= 1.24 rows of different length
    raise ValueError. *)
Definition np_array2 (rows : list (list nat)) : result (list (list nat)) :=
  match rows with
  | [] => Ok []
  | r :: _ => if forallb (fun q => Nat.eqb (length q) (length r)) rows
              then Ok rows else Err ValueError
  end.

(** dataclusters.py:398-432 [find_adjacent_clusters]. *)
Definition find_adjacent_clusters (s : dc) : result (list (list nat)) :=
  match st s with
  | INIT => Err GenericException
  | _ => np_array2 (map (fun p => seq (fst p) (snd p + 1 - fst p))
                        (adjacent_runs (clusters s)))
  end.

(** dataclusters.py:365-389: the inner test loop for one group [c]:
    for i in range(c[0], c[-1]).  [k] counts the remaining iterations.
    Building the message reads c[i] and c[i+1] with the *cluster* index i and
    raises IndexError instead of ValueError when that is out of range.
    Indices in groups are non-negative (negative Python indices are not
    modelled). *)
Definition message_exn (c : list nat) (i : nat) : exn :=
  if Nat.ltb (S i) (length c) then ValueError else IndexError.

Fixpoint check_group (cs : list (Z * Z)) (c : list nat) (first i k : nat)
  : result unit :=
  match k with
  | O => Ok tt
  | S k' =>
    match nth_error c (i + 1 - first), nth_error c (i - first) with
    | Some b, Some a =>
      if negb (Z.of_nat b - 1 =? Z.of_nat a) then Err (message_exn c i)
      else match nth_error cs (S i), nth_error cs i with
           | Some q, Some p =>
             if negb (fst q - snd p =? 1) then Err (message_exn c i)
             else check_group cs c first (S i) k'
           | _, _ => Err IndexError
           end
    | _, _ => Err IndexError
    end
  end.

(** dataclusters.py:364-393, the loop over the groups; mutates end points as
    it goes, so the clusters are returned also when a later group raises. *)
Fixpoint combine_loop (cs : list (Z * Z)) (combine : list (list nat))
  : list (Z * Z) * result unit :=
  match combine with
  | [] => (cs, Ok tt)
  | c :: rest =>
    match c with
    | [] => (cs, Err IndexError)                                   (* c[0] *)
    | first :: _ =>
      let last_ := last c first in
      match check_group cs c first first (last_ - first) with
      | Err e => (cs, Err e)
      | Ok _ =>
        match nth_error cs first, nth_error cs last_ with
        | Some (lo, _), Some (_, hi) =>
            combine_loop (upd cs first (lo, hi)) rest              (* 392 *)
        | _, _ => (cs, Err IndexError)
        end
      end
    end
  end.

Definition has_dup (l : list nat) : bool :=
  negb (Nat.eqb (length l) (length (nodup Nat.eq_dec l))).

(** dataclusters.py:343-396 [combine_clusters].  [np.array(combine)] raises
    for ragged requests (360); np.delete with an empty (hence float) index
    array raises IndexError (394-395). *)
Definition combine_clusters (s : dc) (combine : list (list nat)) : dc * result unit :=
  match np_array2 combine with
  | Err e => (s, Err e)
  | Ok _ =>
    if has_dup (concat combine) then (s, Err ValueError)           (* 361-362 *)
    else
      let (cs, r) := combine_loop (clusters s) combine in
      let put cs' := mkdc (xs s) (ys s) (order s) cs' (res s) (cur s)
                          (lastc s) (lastp s) (st s) in
      match r with
      | Err e => (put cs, Err e)
      | Ok _ =>
        let todelete := concat (map (@tl nat) combine) in
        if Nat.eqb (length todelete) 0 then (put cs, Err IndexError)
        else (put (np_delete cs todelete), Ok tt)
      end
  end.

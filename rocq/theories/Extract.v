(** Model of PeakExtraction.extract_single (peakextraction.py:816-1365): the main
    extraction loop, on top of DataClusters.v, ModelCluster.v and Prune.v.

    The range has been applied already: [x], [y], [e] are self.x, self.y and
    self.effective_dy restricted to the range slice (C46).  Arrays made by one call carry
    the identities 0 (x), 1 (y) and 2 (dy); those of the neighbourhoods 3, 4, 5; only
    arrays of the same call are ever compared.  Logging and the tracer are left out
    (Tracer.v).  A baseline is always present here (defaultvars, C48). *)
From Verif Require Import Prelude ModelCluster Prune.
From Verif Require DataClusters.
Open Scope Z_scope.

(** Everything extract_single needs beyond [world]: quality with a parameter shift and
    argsort()[-1] of evaluators (Prune.v), numpy's argsort used by DataClusters, the
    error method's minpoints, and "5% of" for default uncertainties. *)
Record xtools {P B Q : Type} := mkTools {
  t_w : world P B Q;
  t_qk : cluster P B -> nat -> Q;
  t_qargmax : list Q -> nat;
  t_argsort : list Z -> list Z;
  t_minpoints : nat -> nat -> Z;      (* error method, npars *)
  t_fivepercent : Z -> Z }.
Arguments xtools : clear implicits.
Arguments mkTools {P B Q}.
Arguments t_w {P B Q}. Arguments t_qk {P B Q}. Arguments t_qargmax {P B Q}. Arguments t_argsort {P B Q}.
Arguments t_minpoints {P B Q}. Arguments t_fivepercent {P B Q}.

(** An outcome that may be missing because some recursion bound did not suffice. *)
Definition obind {A C} (m : option (result A)) (f : A -> option (result C)) : option (result C) :=
  match m with None => None | Some (Err e) => Some (Err e) | Some (Ok a) => f a end.
Notation "'odo' x <- m ; f" := (obind m (fun x => f)) (at level 200, x binder, m at level 100, f at level 200).
Definition lift {A} (r : result A) : option (result A) := Some r.

Section Extract.
Context {P B Q : Type}.
Variable T : xtools P B Q.
Notation w := (t_w T).
Notation cluster := (cluster P B).
(** self.baseline, self.cres, self.error_method, self.pf: shared by all recursive calls. *)
Variables (bl : B) (cres : Z) (em : nat) (pf : list nat).
(** What extract_single(recursion_depth + 1) returns for the data (x, y, uncertainty). *)
Variable rec : list Z -> list Z -> list Z -> option (result cluster).
Variable depth : nat.
(** The arrays x, y, dy of this call (844-855). *)
Variables ax ay ae : array.

Notation xs := (adat ax).
Notation ys := (adat ay).

(** 858-869, 896-908: a ModelCluster for one data cluster. *)
Definition fresh (sl : Z * Z) : result cluster :=
  make_cluster w [] (Some bl) ax ay ae (Some (Z.to_nat (fst sl), Z.to_nat (snd sl))) em pf.

(** [m.fit(justify=True)] *)
Definition fit_true (c : cluster) : result cluster :=
  let f := fit w c true 0 false true in match fr_out f with Err e => Err e | Ok _ => Ok (fr_c f) end.

(** 893-911: add a model for a new cluster or move the slice of the one that grew. *)
Definition sync (s : DataClusters.dc) (mcs : list cluster) : result (list cluster) :=
  match DataClusters.lastc s with
  | None => Err TypeError
  | Some k =>
    do sl <- DataClusters.cut s k;
    if (length mcs <? length (DataClusters.clusters s))%nat then
      do c <- fresh sl; Ok (insert_at mcs k c)
    else
      match nth_error mcs k with
      | None => Err IndexError
      | Some c =>
        match change_slice w c (Z.to_nat (fst sl)) (Z.to_nat (snd sl)) with
        | (_, Err e) => Err e
        | (c', Ok _) => Ok (upd mcs k c')
        end
      end
  end.

(** 913-923: the adjacent clusters (ravel of the rows) and the two assertions. *)
Definition adjacent_of (s : DataClusters.dc) : result (list nat) :=
  do rows <- DataClusters.find_adjacent_clusters s; Ok (concat rows).
Definition assertions (s : DataClusters.dc) (mcs : list cluster) (adj : list nat) : result unit :=
  if negb (length (DataClusters.clusters s) =? length mcs)%nat then Err AssertionError
  else if negb (length adj <=? 3)%nat then Err AssertionError else Ok tt.

(** 893-923, everything of one iteration up to and including the assertions. *)
Definition head (s : DataClusters.dc) (mcs : list cluster) : result (list cluster * list nat) :=
  do mcs1 <- sync s mcs;
  do adj <- adjacent_of s;
  do _ <- assertions s mcs1 adj;
  Ok (mcs1, adj).

(** 927-928. *)
Fixpoint fit_all (mcs : list cluster) (is : list nat) : result (list cluster) :=
  match is with
  | [] => Ok mcs
  | a :: r =>
    match nth_error mcs a with
    | None => Err IndexError
    | Some c => do c' <- fit_true c; fit_all (upd mcs a c') r
    end
  end.
(** 936. *)
Definition fit_last (mcs : list cluster) (k : nat) (minpoints : Z) : result (list cluster) :=
  match nth_error mcs k with
  | None => Err IndexError
  | Some c => let f := contingent_fit w c minpoints 2 1 in
              match fr_out f with Err e => Err e | Ok _ => Ok (upd mcs k (fr_c f)) end
  end.

(** x.searchsorted(position); NaN sorts after everything. *)
Definition ss (p : option Z) : nat := match p with Some v => searchsorted_left xs v | None => length xs end.

(** 964-1012 and 1117-1165 (the same text): the peaks next to the border, the other
    peaks, and the data range adj_slice = left_data : right_data + 1. *)
Record hood := mkHood { near_pk : list P; other_pk : list P; h_lo : nat; h_hi : nat }.
Definition neighbourhood (c : cluster) (border : Z) : hood :=
  let m := c_model c in
  let n := length m in
  let pos k := match nth_error m k with Some p => w_position w p | None => None end in
  let pivot := searchsorted_pos (map (w_position w) m) border in
  let lo := Nat.min (c_start c) (length xs) in
  let hi := Nat.min (c_stop c) (length xs) in
  let left_data := if (pivot <=? 1)%nat then lo else (ss (pos (pivot - 2)%nat) - 1)%nat in
  let right1 := if (n <=? S pivot)%nat then hi else S (Nat.min (length xs) (ss (pos (S pivot)) + 1)) in
  let near := (if (pivot =? 0)%nat then [] else [pivot - 1]%nat) ++ (if (pivot =? n)%nat then [] else [pivot]) in
  let other := seq 0 (pivot - 1) ++ seq (S pivot) (n - S pivot) in
  mkHood (pick m near) (pick m other) left_data right1.

(** 1019-1022, 1172-1175: adj_x, adj_y, adj_error. *)
Definition adj_x (h : hood) := slice xs (h_lo h) (h_hi h).
Definition adj_y (h : hood) := vsub w (slice ys (h_lo h) (h_hi h)) (vsum w (adj_x h) (other_pk h)).
Definition adj_e (h : hood) := slice (adat ae) (h_lo h) (h_hi h).
Definition adj_cluster (h : hood) : result cluster :=
  make_cluster w (near_pk h) (Some bl) (mkArr 3 (adj_x h)) (mkArr 4 (adj_y h)) (mkArr 5 (adj_e h))
    (Some (0%nat, length (adj_x h))) em pf.

(** 1035-1075, 1207-1249, 1254-1294: the residual of [m] is re-extracted if that looks
    promising, and what is found augments [c].  [enabled] carries the additional test on the
    number of near peaks, where there is one (it is evaluated together with the rest). *)
Definition recurse_on (h : hood) (m : list P) (enabled : bool) (c : cluster) : option (result cluster) :=
  let rec_y := vsub w (adj_y h) (vsum w (adj_x h) m) in
  odo mn <- lift (min_npars w pf);
  odo chk <- lift (make_cluster w [] None (mkArr 3 (adj_x h)) (mkArr 4 rec_y) (mkArr 5 (adj_e h)) None em pf);
  if enabled && w_growth w (w_quality w chk) chk mn && (depth <? 3)%nat then
    odo r <- rec (adj_x h) rec_y (adj_e h);
    match augment w (t_qargmax T) (S (length (c_model r))) c r with
    | None => None
    | Some (_, Err e) => Some (Err e)
    | Some (c', Ok _) => Some (Ok c')
    end
  else Some (Ok c).

(** The end of both sections, 1077-1080 and 1296-1308: [c.model = other_peaks;
    c.replacepeaks(new); c.fit(True)]. *)
Definition rebuild (c : cluster) (other new : list P) : result cluster :=
  match replacepeaks w other new (Some 0) (Some 0) with
  | (_, Err e) => Err e
  | (m, Ok _) => fit_true (set_model c m)
  end.

(** 955-1096, boundary recursion on the cluster that reached an end of the data.  The
    border coordinate is read with the *cluster* number (961-962). *)
Definition boundary (mcs : list cluster) (k : nat) : option (result (list cluster)) :=
  match nth_error mcs k with
  | None => Some (Err IndexError)
  | Some c =>
    odo c0 <- lift (copy_cluster w c);
    odo full <- lift (fit_true c0);
    odo border_x <- lift (pyget xs (Z.of_nat k));
    odo _ <- lift (pyget ys (Z.of_nat k));
    let h := neighbourhood full border_x in
    odo a <- lift (adj_cluster h);
    odo a' <- recurse_on h (near_pk h) (negb (length (near_pk h) =? 0)%nat) a;
    odo full' <- lift (rebuild full (other_pk h) (c_model a'));
    Some (Ok (upd mcs k full'))
  end.

(** [self.model.value(x) < y] at 1240 of modelcluster.py, for a single coordinate. *)
Definition below_at (m : list P) (x y : Z) : bool :=
  match vsum w [x] m with v :: _ => v <? y | [] => false end.

(** 1202-1249: the variant reduced at the border (only with a peak on either side). *)
Definition first_variant (h : hood) (bx by_ : Z) (a : cluster) : option (result cluster) :=
  if (length (near_pk h) =? 2)%nat then
    let ybl := match valuebl w (Some bl) [bx] with v :: _ => w_rnd w (by_ - v) | [] => by_ end in
    match reduce_to w a (below_at (c_model a) bx by_) (w_match_at w bx ybl) with
    | (_, Err e) => Some (Err e)
    | (a1, Ok _) => recurse_on h (c_model a1) true a1
    end
  else Some (Ok a).
(** 1251-1294: the variant that is simply fitted. *)
Definition second_variant (h : hood) (a : cluster) : option (result cluster) :=
  odo a1 <- lift (fit_true a);
  recurse_on h (c_model a1) (negb (length (near_pk h) =? 0)%nat) a1.

(** 1104-1329: one pair of adjacent clusters becomes one. *)
Definition combine_pair (cs : list (Z * Z)) (mcs : list cluster) (idx : nat) : option (result (list cluster)) :=
  match nth_error cs (idx - 1)%nat, nth_error cs idx, nth_error mcs (idx - 1)%nat, nth_error mcs idx with
  | Some cl, Some cr, Some ml, Some mr =>
    odo new <- lift (join_adjacent w ml mr);
    odo x1 <- lift (pyget xs (snd cl));
    odo x2 <- lift (pyget xs (fst cr));
    odo y1 <- lift (pyget ys (snd cl));
    odo y2 <- lift (pyget ys (fst cr));
    let border_x := w_mid w x1 x2 in
    let border_y := w_mid w y1 y2 in
    let h := neighbourhood new border_x in
    odo a <- lift (adj_cluster h);
    odo a1 <- first_variant h border_x border_y a;
    odo a2 <- second_variant h a;
    (* 1296-1306; rej_cluster is only logged, but its construction may raise *)
    odo _ <- lift (copy_cluster w (set_model new (other_pk h)));
    let best := if w_qlt w (w_quality w a2) (w_quality w a1) then c_model a1 else c_model a2 in
    odo new' <- lift (rebuild new (other_pk h) best);
    Some (Ok (del_at (upd mcs (idx - 1)%nat new') idx))
  | _, _, _, _ => Some (Err IndexError)
  end.
(** 1102: [for idx in adjacent[-1:0:-1]]. *)
Fixpoint combine_all (cs : list (Z * Z)) (mcs : list cluster) (is : list nat) : option (result (list cluster)) :=
  match is with
  | [] => Some (Ok mcs)
  | i :: r => odo mcs' <- combine_pair cs mcs i; combine_all cs mcs' r
  end.

(** 925-1335, the rest of one iteration. *)
Definition body (minpoints : Z) (s : DataClusters.dc) (mcs : list cluster) (adj : list nat)
  : option (result (DataClusters.dc * list cluster)) :=
  match DataClusters.lastc s, DataClusters.lastp s with
  | Some k, Some p =>
    odo m1 <- lift (fit_all mcs adj);
    odo m2 <- lift (fit_last m1 k minpoints);
    odo m3 <- (if (p =? 0) || (p =? Z.of_nat (length (DataClusters.xs s)) - 1) then boundary m2 k else Some (Ok m2));
    odo m4 <- combine_all (DataClusters.clusters s) m3 (rev (tl adj));
    match adj with
    | [] => Some (Ok (s, m4))
    | _ => match DataClusters.combine_clusters s [adj] with
           | (_, Err e) => Some (Err e)
           | (s', Ok _) => Some (Ok (s', m4))
           end
    end
  | _, _ => Some (Err TypeError)
  end.

(** One iteration of the loop 880-1335. *)
Definition iteration (minpoints : Z) (s : DataClusters.dc) (mcs : list cluster)
  : option (result (DataClusters.dc * list cluster)) :=
  odo t <- lift (head s mcs);
  let '(m1, adj) := t in body minpoints s m1 adj.

(** The loop; the iterator signals its end by StopIteration. *)
Fixpoint loop (fuel : nat) (minpoints : Z) (s : DataClusters.dc) (mcs : list cluster)
  : option (result (DataClusters.dc * list cluster)) :=
  match fuel with
  | O => None
  | S f =>
    match DataClusters.next (w_rnd w) s with
    | (s1, Err StopIteration) => Some (Ok (s1, mcs))
    | (_, Err e) => Some (Err e)
    | (s1, Ok _) =>
      odo t <- iteration minpoints s1 mcs;
      let '(s2, m2) := t in loop f minpoints s2 m2
    end
  end.

(** 874: [max([error_method().minpoints(p.npars) for p in pf])] *)
Definition minpoints_of : result Z := pymax (map (fun f => t_minpoints T em (w_func_npars w f)) pf).

(** addexternalpeaks, modelcluster.py:517-531. *)
Definition addexternalpeaks (c : cluster) (ip : list P) : result cluster :=
  match replacepeaks w (c_model c) ip (Some 0) (Some 0) with
  | (_, Err e) => Err e
  | (m, Ok _) => Ok (set_y (set_model c m)
                      (mkArr (aid (c_y c)) (vadd w (adat (c_y c)) (vsum w (adat (c_r c)) ip))))
  end.

(** 1343-1355: what happens to the single remaining cluster. *)
Definition finish (mcs : list cluster) (ip : list P) : option (result cluster) :=
  match mcs with
  | [] => Some (Err IndexError)
  | c :: _ =>
    odo c1 <- lift (addexternalpeaks c ip);
    match prune w (t_qk T) (t_qargmax T) (S (length (c_model c1))) c1 with
    | None => None
    | Some (_, Err e) => Some (Err e)
    | Some (m, Ok _) =>
      let c2 := set_model c1 m in
      if (depth =? 1)%nat then
        let f := fit w c2 false 0 true true in
        match fr_out f with Err e => Some (Err e) | Ok _ => Some (Ok (fr_c f)) end
      else Some (Ok c2)
    end
  end.

(** The start, 852-874: the iterator over the data without baseline and initial peaks, and
    the first model.  [yd] is y without baseline and initial peaks. *)
Definition start (yd : list Z) : result (DataClusters.dc * list cluster * Z) :=
  do s <- DataClusters.construct (t_argsort T) xs yd cres;
  do sl <- DataClusters.cut s 0;
  do c <- fresh sl;
  do mp <- minpoints_of;
  Ok (s, [c], mp).

(** The whole call on prepared arrays. *)
Definition run (yd : list Z) (ip : list P) : option (result cluster) :=
  odo t <- lift (start yd);
  let '(s, mcs, mp) := t in
  odo u <- loop (S (length xs)) mp s mcs;
  finish (snd u) ip.
End Extract.

(** extract_single on data x, y with uncertainties e and initial peaks ip; [fuel] bounds
    the depth of nested calls (None: it did not suffice).  A nested PeakExtraction gets
    the data (rec_r, rec_y, None, rec_error); its effective_dy is the default of
    peakextraction.py:208-216, its range the whole range, its initial peaks none. *)
Section Recursion.
Context {P B Q : Type}.
Variable T : xtools P B Q.
Variables (bl : B) (cres : Z) (em : nat) (pf : list nat).

Definition default_edy (y e : list Z) : list Z :=
  if forallb (fun d => 0 <? d) e then e
  else match y with
       | [] => []
       | a :: r => repeat (t_fivepercent T (w_rnd (t_w T) (fold_left Z.max r a - fold_left Z.min r a))) (length y)
       end.

Fixpoint extract (fuel depth : nat) (x y e : list Z) (ip : list P) : option (result (cluster P B)) :=
  match fuel with
  | O => None
  | S f =>
    let w := t_w T in
    let y1 := vsub w y (vsum w x ip) in                         (* 855, y without ip *)
    let yd := vsub w (vsub w y (w_blvalue w bl x)) (vsum w x ip) in   (* 845 *)
    run T bl cres em pf
      (fun rx ry re => match rx with
                       | [] => Some (Err IndexError)          (* self.x[0] in defaultvars *)
                       | _ => extract f (S depth) rx ry (default_edy ry re) [] end)
      depth (mkArr 0 x) (mkArr 1 y1) (mkArr 2 e) yd ip
  end.
End Recursion.

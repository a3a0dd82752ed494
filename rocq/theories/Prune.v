(** Model of ModelCluster.prune, ModelCluster.augment and ModelCluster.reduce_to
    (modelcluster.py:1226-1265, 1388-1450, 1463-1651) on top of ModelCluster.v.

    [qk c k] is quality(kshift=k) of a cluster, [qargmax] is [argsort()[-1]] on an array
    of evaluators.  Peaks are compared by content; where several lists share part
    objects the comments say what that means.  The tracer and the log are not
    modelled here (see Tracer.v for the tracer). *)
From Verif Require Import Prelude ModelCluster.
Open Scope Z_scope.

Section Prune.
Context {P B Q : Type}.
Variable w : world P B Q.
Variable qk : cluster P B -> nat -> Q.
Variable qargmax : list Q -> nat.
Notation cluster := (cluster P B).

Definition vadd (a b : list Z) : list Z := map (fun p => w_rnd w (fst p + snd p)) (combine a b).
(** [np.sum(list of arrays, axis=0)]; the order of the additions is simplified. *)
Definition vsum (r : list Z) (ps : list P) : list Z :=
  fold_left (fun acc p => vadd acc (w_pvalue w p r)) ps (map (fun _ => 0) r).

(** 1559-1562, 1605-1606: the peaks kept in the local fit when peak i is left out. *)
Definition window_lo (i : nat) : nat := (i - 3)%nat.
Definition window_hi (i n : nat) : nat := Nat.min (i + 4) n.
Definition local_model (best : list P) (i : nat) : list P :=
  slice best (window_lo i) i ++ slice best (i + 1) (window_hi i (length best)).
(** 1573. *)
Definition addpars (best : list P) (i : nat) : nat :=
  (model_npars w true best - model_npars w true (local_model best i) -
   match nth_error best i with Some p => w_p_npars w false p | None => 0 end)%nat.
(** 1576-1584: the data minus the distant peaks. *)
Definition local_y (rc ynobl : list Z) (best : list P) (i : nat) : list Z :=
  let lo := window_lo i in
  let hi := window_hi i (length best) in
  let y1 := if (0 <? lo)%nat then vsub w ynobl (vsum rc (firstn lo best)) else ynobl in
  if (hi <? length best)%nat then vsub w y1 (vsum rc (skipn hi best)) else y1.

(** One pass over the peaks, 1553-1609.  Results: prune_mc, check_models (None = not
    removable, or its quality decreased) and the qualities with their indices.
    check_models[i] is the list object handed to prune_mc.fit, so its final content is
    [fr_list], not the model prune_mc ends up with. *)
Fixpoint check_peaks (best : list P) (best_qual : Q) (rc ynobl : list Z) (is : list nat) (mc : cluster)
  : result (cluster * list (option (list P)) * list (nat * Q)) :=
  match is with
  | [] => Ok (mc, [], [])
  | i :: rest =>
    match nth_error best i with
    | None => Err IndexError
    | Some p =>
      if w_removable w p then
        let loc := local_model best i in
        let mc1 := set_y (set_model mc loc) (mkArr 0 (local_y rc ynobl best i)) in
        let f := fit w mc1 false (Nat.sqrt (length rc) + 50) false false in
        match fr_out f with
        | Err e => Err e
        | Ok _ =>
          let q := qk (fr_c f) (addpars best i) in
          do t <- check_peaks best best_qual rc ynobl rest (fr_c f);
          let '(mc', cks, qs) := t in
          Ok (mc', (if w_qlt w q best_qual then None else Some (fr_list f)) :: cks, (i, q) :: qs)
        end
      else
        do t <- check_peaks best best_qual rc ynobl rest mc;
        let '(mc', cks, qs) := t in Ok (mc', None :: cks, qs)
    end
  end.

Definition is_some {A} (o : option A) : bool := match o with Some _ => true | None => false end.

(** The main loop, 1528-1640.  [cur] is self.model, [norig] = len(orig_model), [live] tells
    which entries of check_models are not None.  [fuel] bounds the number of rounds;
    None means that it did not suffice.  On an exception the peaks in [cur] may also
    have been changed by the failed fit (they are shared with [best] after the first
    round); that is not represented. *)
Fixpoint prune_loop (fuel : nat) (rc ynobl : list Z) (cur best : list P) (norig : nat) (best_qual : Q)
    (mc : cluster) (live : list bool) : option (list P * result unit) :=
  match fuel with
  | O => None
  | S fuel' =>
    if negb (existsb (fun b => b) live) then Some (cur, Ok tt) else
    match check_peaks best best_qual rc ynobl (seq 0 (length best)) mc with
    | Err e => Some (cur, Err e)
    | Ok (mc1, cks, qs) =>
      match qs with
      | [] => Some (cur, Err IndexError)      (* arg[-1] of an empty array *)
      | _ =>
        match nth_error qs (qargmax (map snd qs)) with
        | None => Some (cur, Err IndexError)
        | Some (idx, nq) =>
          if w_qlt w best_qual nq then
            match nth_error cks idx with
            | Some (Some l) =>
              let bmtemp := firstn (window_lo idx) best ++ l ++ skipn (window_hi idx norig) best in
              let f := fit w (set_y (set_model mc1 bmtemp) (mkArr 0 ynobl)) false 0 false false in
              match fr_out f with
              | Err e => Some (cur, Err e)
              | Ok _ =>
                let best' := c_model (fr_c f) in
                match best' with
                | [] => Some ([], Ok tt)
                | _ => prune_loop fuel' rc ynobl best' best' (norig - 1) (w_quality w (fr_c f)) (fr_c f)
                         (del_at (map is_some cks) idx)
                end
              end
            | _ => Some (cur, Err TypeError)  (* extend(None) *)
            end
          else Some (cur, Ok tt)
        end
      end
    end
  end.

(** prune, 1463-1651: the model afterwards and the outcome. *)
Definition prune (fuel : nat) (c : cluster) : option (list P * result unit) :=
  match c_model c with
  | [] => Some ([], Ok tt)
  | _ =>
    let rc := r_cluster c in
    let ynobl := vsub w (y_cluster c) (valuebl w (c_base c) rc) in
    match make_cluster w [] None (mkArr 0 rc) (mkArr 0 ynobl) (mkArr 0 (e_cluster c)) None (c_em c) (c_pf c) with
    | Err e => Some (c_model c, Err e)
    | Ok mc => prune_loop fuel rc ynobl (c_model c) (c_model c) (length (c_model c)) (w_quality w c) mc
                 (map (w_removable w) (c_model c))
    end
  end.

(** augment, 1388-1450.  One round: fit best + [s] for each remaining source peak s.  The
    fitted list objects are the test models; the source peak in test model i is the very
    object of source_model[i], so later rounds start from its fitted value (the engine
    keeps the order, so it is the last peak of [fr_raw]).  *)
Fixpoint try_sources (best : list P) (srcs : list P) (c : cluster)
  : result (cluster * list (list P) * list Q * list P) :=
  match srcs with
  | [] => Ok (c, [], [], [])
  | s :: rest =>
    let f := fit w (set_model c (best ++ [s])) false 0 false true in
    match fr_out f with
    | Err e => Err e
    | Ok _ =>
      do t <- try_sources best rest (fr_c f);
      let '(c', ms, qs, ss) := t in
      Ok (c', fr_list f :: ms, w_quality w (fr_c f) :: qs, last (fr_raw f) s :: ss)
    end
  end.

Fixpoint augment_loop (fuel : nat) (best srcs : list P) (best_qual : Q) (c : cluster) : option (result (list P * cluster)) :=
  match fuel with
  | O => None
  | S fuel' =>
    match srcs with
    | [] => Some (Ok (best, c))
    | _ =>
      match try_sources best srcs c with
      | Err e => Some (Err e)
      | Ok (c1, ms, qs, ss) =>
        let a := qargmax qs in
        match nth_error qs a, nth_error ms a with
        | Some q, Some m =>
          if w_qlt w best_qual q then augment_loop fuel' m (del_at ss a) q c1
          else Some (Ok (best, c1))
        | _, _ => Some (Err IndexError)
        end
      end
    end
  end.

Definition augment (fuel : nat) (c source : cluster) : option (cluster * result unit) :=
  match augment_loop fuel (c_model c) (c_model source) (w_quality w c) c with
  | None => None
  | Some (Err e) => Some (c, Err e)     (* the state after an escaping exception is not represented *)
  | Some (Ok (best, c1)) =>
    match replacepeaks w (c_model c1) best None (Some (Z.of_nat (length (c_model c1)))) with
    | (m, Err e) => Some (set_model c1 m, Err e)
    | (m, Ok _) =>
      let f := fit w (set_model c1 m) false 0 false true in
      Some (fr_c f, match fr_out f with Err e => Err e | Ok _ => Ok tt end)
    end
  end.

(** reduce_to, 1226-1265.  [below] is the test model.value(x) < y; [match_at] its effect on
    the list (MatchAt.v). *)
Definition reduce_to (c : cluster) (below : bool) (match_at : list P -> list P) : cluster * result (option Q) :=
  if below then (c, Ok None) else
  let f := fit w (set_model c (match_at (c_model c))) false 0 false true in
  match fr_out f with
  | Err e => (fr_c f, Err e)
  | Ok None => (set_model (fr_c f) (c_model c), Ok None)
  | Ok (Some q) =>
    match min_npars w (c_pf c) with
    | Err e => (fr_c f, Err e)
    | Ok n => if w_growth w q (fr_c f) n then (set_model (fr_c f) (c_model c), Ok None) else (fr_c f, Ok (Some q))
    end
  end.
End Prune.

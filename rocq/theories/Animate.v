(** Model of the displays of ModelSelection: animate_probs, animate_classprobs and
    plot3dclassprobs (multimodelselection.py:209-328, 578-762).

    A table is a partial function on the uncertainties K; probabilities are of a type W.
    Peak lists are the mutable objects of Stability.v.  A frame is what is on the screen when
    one uncertainty has been dealt with.  [draw] stands for matplotlib: it reads and may raise.
    The arguments step and duration (pauses) are not represented. *)
From Coq Require Import String.
From Verif Require Import Prelude ModelCluster Stability.

Section Animate.
Context {P B Q D X K W : Type}.
Variable w : world P B Q.
Variable resample : @ppe P B X -> D -> result (array * array * array).
Notation stab := (@stab P B D X).
Notation setcurrent := (setcurrent w resample).
Definition table A := K -> option A.
Definition look_up {A} (t : table A) (k : K) : result A := match t k with Some v => Ok v | None => Err KeyError end.

(** The curves: probabilities, the marked uncertainty, the dot, and the peaks and the baseline
    of the cluster that was plotted last. *)
Record frame := mkFrame { f_dg : K; f_line : list W; f_dot : K * W; f_peaks : list P; f_base : option B }.
Variable draw : frame -> result unit.

(** ppe.extracted: the content of the objects it holds (see Stability.v) *)
Definition shown (s : stab) : result (list P * option B) :=
  match p_ext (s_ppe s) with
  | None => Err AttributeError
  | Some x => match ext_cluster s x with Some c => Ok (c_model c, c_base c) | None => Err AttributeError end
  end.
(** 243-244: extracted.replacepeaks(results[best][1], slice(0, len(extracted.model))) changes
    the list object extracted.model *)
Definition replace_shown (s : stab) (best : nat) : stab * result unit :=
  match p_ext (s_ppe s) with
  | None => (s, Err AttributeError)
  | Some x =>
    match pyget (s_results s) (Z.of_nat best), nth_error (s_models s) (e_model x) with
    | Err e, _ => (s, Err e)
    | Ok r, Some m =>
      match nth_error (s_models s) (r_model r) with
      | None => (s, Err AttributeError)
      | Some new =>
        let '(m', o) := replacepeaks w m new (Some 0%Z) (Some (Z.of_nat (length m))) in
        (mkStab (upd (s_models s) (e_model x) m') (s_bases s) (s_results s) (s_ppe s) (s_current s), o)
      end
    | Ok _, None => (s, Err AttributeError)
    end
  end.

Section Probs.
Variables (dgs : list K) (aicprobs : table (list W)) (sortedprobs : table (list nat)).
(** the last index of a sorted table *)
Definition best_at (t : table (list nat)) (dg : K) : result nat := do l <- look_up t dg; pyget l (-1).
(** 236-253 *)
Fixpoint probs_loop (s : stab) (best : nat) (ds : list K) : stab * list frame * result unit :=
  match ds with
  | [] => (s, [], Ok tt)
  | dg :: rest =>
    match look_up aicprobs dg, best_at sortedprobs dg with
    | Err e, _ => (s, [], Err e)
    | _, Err e => (s, [], Err e)
    | Ok line, Ok b =>
      let '(s1, o) := if Nat.eqb b best then (s, Ok tt) else replace_shown s b in
      match (do _ <- o; do sh <- shown s1; do x <- pyget dgs (Z.of_nat b); do y <- pyget line (Z.of_nat b); Ok (sh, x, y)) with
      | Err e => (s1, [], Err e)
      | Ok (sh, x, y) =>
        let f := mkFrame dg line (x, y) (fst sh) (snd sh) in
        match draw f with
        | Err e => (s1, [], Err e)
        | Ok _ => let '(s2, fs, o2) := probs_loop s1 b rest in (s2, f :: fs, o2)
        end
      end
    end
  end.
(** animate_probs, 209-253; plot(dgs, probs) wants equal lengths *)
Definition animate_probs (s : stab) : stab * list frame * result unit :=
  match (do dg0 <- pyget dgs 0; do b <- best_at sortedprobs dg0; do line <- look_up aicprobs dg0;
         if negb (Nat.eqb (length dgs) (length line)) then Err ValueError else
         do x <- pyget dgs (Z.of_nat b); do y <- pyget line (Z.of_nat b); Ok (dg0, b, line, (x, y))) with
  | Err e => (s, [], Err e)
  | Ok (dg0, b, line, dot) =>
    match setcurrent s (Some (Z.of_nat b)) with
    | (s1, Err e) => (s1, [], Err e)
    | (s1, Ok _) =>
      match shown s1 with
      | Err e => (s1, [], Err e)
      | Ok sh =>
        let f := mkFrame dg0 line dot (fst sh) (snd sh) in
        match draw f with
        | Err e => (s1, [], Err e)
        | Ok _ => let '(s2, fs, o) := probs_loop s1 b (tl dgs) in (s2, f :: fs, o)
        end
      end
    end
  end.
End Probs.

Section ClassProbs.
(** in the first frame the dot is at an uncertainty on an axis of class numbers, 280-284 *)
Inductive place := AtDg (k : K) | AtClass (c : nat).
Record cframe := mkCFrame { g_dg : K; g_line : list W; g_dot : place * W; g_peaks : list P; g_base : option B }.
Variable cdraw : cframe -> result unit.
Variables (dgs : list K) (classes : list (list nat)) (classprobs : table (list W))
  (sortedclassprobs : table (list nat)) (sortedclasses : table (list (list nat))).
Definition class_best (dg : K) (c : nat) : result nat := do cs <- look_up sortedclasses dg; do l <- pyget cs (Z.of_nat c); pyget l (-1).
(** 309-328: tempcluster is a cluster of its own *)
Fixpoint class_loop (s : stab) (temp : list P) (bl : option B) (bestclass : nat) (ds : list K) : list cframe * result unit :=
  match ds with
  | [] => ([], Ok tt)
  | dg :: rest =>
    match (do line <- look_up classprobs dg; do c <- best_at sortedclassprobs dg;
           do temp' <- (if Nat.eqb c bestclass then Ok temp
                        else do b <- class_best dg c;
                             do r <- pyget (s_results s) (Z.of_nat b);
                             match nth_error (s_models s) (r_model r) with
                             | None => Err AttributeError
                             | Some new => let '(m, o) := replacepeaks w temp new (Some 0%Z) (Some (Z.of_nat (length temp))) in do _ <- o; Ok m
                             end);
           do y <- pyget line (Z.of_nat c); Ok (line, c, temp', y)) with
    | Err e => ([], Err e)
    | Ok (line, c, temp', y) =>
      let f := mkCFrame dg line (AtClass c, y) temp' bl in
      match cdraw f with
      | Err e => ([], Err e)
      | Ok _ => let '(fs, o) := class_loop s temp' bl c rest in (f :: fs, o)
      end
    end
  end.
(** animate_classprobs, 255-328 *)
Definition animate_classprobs (s : stab) : stab * list cframe * result unit :=
  match (do dg0 <- pyget dgs 0; do c <- best_at sortedclassprobs dg0; do b <- class_best dg0 c; do line <- look_up classprobs dg0;
         if negb (Nat.eqb (length classes) (length line)) then Err ValueError else
         do x <- pyget dgs (Z.of_nat b); do y <- pyget line (Z.of_nat c); Ok (dg0, c, b, line, (AtDg x, y))) with
  | Err e => (s, [], Err e)
  | Ok (dg0, c, b, line, dot) =>
    match setcurrent s (Some (Z.of_nat b)) with
    | (s1, Err e) => (s1, [], Err e)
    | (s1, Ok _) =>
      match p_ext (s_ppe s1) with
      | None => (s1, [], Err AttributeError)
      | Some x =>
        match ext_cluster s1 x with
        | None => (s1, [], Err AttributeError)
        | Some e =>
          match copy_cluster w e with          (* ModelCluster(self.ppe.extracted), 302 *)
          | Err x => (s1, [], Err x)
          | Ok t =>
            let f := mkCFrame dg0 line dot (c_model t) (c_base t) in
            match cdraw f with
            | Err x => (s1, [], Err x)
            | Ok _ => let '(fs, o) := class_loop s1 (c_model t) (c_base t) c (tl dgs) in (s1, f :: fs, o)
            end
          end
        end
      end
    end
  end.
End ClassProbs.
End Animate.

(** ** plot3dclassprobs *)
Section Plot3D.
Context {K W : Type}.
Variable wle : W -> W -> bool.
(** matplotlib: creating the axes, the colours and norms, adding the collection *)
Variable mpl : nat -> result unit.
Variables (classprobs : K -> option (list W)) (nclasses : nat).
Definition wmax (l : list W) : result W :=
  match l with [] => Err ValueError | a :: r => Ok (fold_left (fun m v => if wle m v then v else m) r a) end.
(** np.concatenate of a sequence one member of which is a zip object (643-651): numpy sees a
    scalar object, which cannot be concatenated *)
Inductive piece := Rows (n : nat) | Iterator.
Definition np_concatenate (l : list piece) : result unit :=
  if existsb (fun p => match p with Iterator => true | Rows _ => false end) l then Err ValueError else Ok tt.
(** 639-652: the classes shown *)
Fixpoint collect (dGs : list K) (lo hi : W) (cs : list nat) : result (list nat) :=
  match cs with
  | [] => Ok []
  | i :: r =>
    do ys <- (fix go l := match l with [] => Ok [] | dG :: t => do p <- match classprobs dG with Some v => Ok v | None => Err KeyError end; do y <- pyget p (Z.of_nat i); do ys <- go t; Ok (y :: ys) end) dGs;
    do m <- wmax ys;
    if wle lo m && wle m hi then
      do _ <- pyget dGs 0;
      do _ <- np_concatenate [Rows 1; Iterator; Rows 1; Rows 1];
      do z <- collect dGs lo hi r; Ok (i :: z)
    else collect dGs lo hi r
  end.
Inductive csize := Number | Fraction | OtherSize.
Inductive cnorm := Auto | Full | OtherNorm.
(** 615-762; np.max and np.min of the empty array of class sizes raise, 662, 672; so does
    zs[0], 708 *)
Definition plot3dclassprobs (dGs : list K) (cs : option (list nat)) (lo hi : W) (size : csize) (norm : cnorm) : result (list nat) :=
  do _ <- mpl 0;
  do z <- collect dGs lo hi (match cs with Some l => l | None => seq 0 nclasses end);
  do _ <- (match size, norm, z with Number, Auto, [] => Err ValueError | _, _, _ => Ok tt end);
  do _ <- mpl 1;
  do _ <- pyget dGs 0;
  do _ <- pyget (seq 0 (length z)) 0;
  do _ <- mpl 2;
  Ok z.
End Plot3D.

(** Model of PDFPeakExtraction.extract and fit (pdfpeakextraction.py:334-638) and of
    PeakExtraction.fit_single (peakextraction.py:1367-1408), on top of Vars.v (range),
    Resample.v (resampling), Extract.v (extract_single), Nyquist.v and Prune.v.

    All settings have their values already (defaultvars, C48).  Floats of the grids enter
    the peak models through [enc] (the scaled integers of ModelCluster.v).  The covariance
    reported is not represented here (Covariance.v).  Logging is left out, the tracer is
    in Tracer.v.  What extract() does to the content of the user's baseline object is followed
    with the help of Ownership.v.  A data set of a single point, for which the code divides
    0 by 0, is an error here (ZeroDivision as ValueError). *)
From Coq Require Import Reals String.
From Verif Require Import Prelude Evaluators ModelCluster Prune Nyquist Extract Ownership.
From Verif Require Vars Resample.
Open Scope R_scope.

(** *** Grids *)
Record data := mkData { d_x : list R; d_y : list R; d_dx : option (list R); d_edy : list R; d_lo : R; d_hi : R;
  d_qmax : R; d_supersample : R; d_nyquist : bool; d_scale : bool }.
(** 370, 584 *)
Definition dr_raw (s : data) : result R :=
  do x0 <- pyget (d_x s) 0;
  do xn <- pyget (d_x s) (-1);
  if (length (d_x s) =? 1)%nat then Err ValueError else Ok ((xn - x0) / (INR (length (d_x s)) - 1)).
(** 374-387, 588-601 *)
Definition dr_nyquist (s : data) (raw : R) : R := if Rltb 0 (d_qmax s) then PI / d_qmax s else raw.
Definition resampled (s : data) (dr : R) : result (list R * list R * list R) :=
  do t <- Resample.resampledata (d_x s) (d_y s) (d_dx s) (d_edy s) (d_lo s) (d_hi s) (d_qmax s) (d_nyquist s) (d_scale s) dr;
  let '(r, y, _, e) := t in Ok (r, y, e).
Definition in_range (s : data) : result (list R * list R * list R) :=
  do sl <- Vars.getrangeslice (d_x s) (d_lo s) (d_hi s);
  Ok (Vars.take_slice (d_x s) sl, Vars.take_slice (d_y s) sl, Vars.take_slice (d_edy s) sl).
(** 390-405: the grid of the initial extraction *)
Definition extract_grid (s : data) : result (list R * list R * list R) :=
  do raw <- dr_raw s;
  do t <- in_range s;
  if Req_EM_T (d_qmax s) 0 then Ok t else
  if Rltb (dr_nyquist s raw / raw) (d_supersample s) then resampled s (dr_nyquist s raw / d_supersample s)
  else let '(r, y, e) := t in Ok (r, y, map (Rmult (Resample.errorscale (d_qmax s) (d_nyquist s) (d_scale s) raw)) e).
(** 604-610: the grid of fit() *)
Definition fit_grid (s : data) : result (list R * list R * list R) :=
  do raw <- dr_raw s;
  do t <- in_range s;
  if Req_EM_T (d_qmax s) 0 then Ok t else
  if negb (d_nyquist s) then Ok t else resampled s (dr_nyquist s raw).

Section Pdf.
Context {P B Q : Type}.
Variable T : xtools P B Q.
Notation w := (t_w T).
Notation cluster := (cluster P B).
Variable enc : R -> Z.
(** *** Termination ripples: the owner of a peak (458-471) *)
(** Peak functions are object identities.  [ripples o]: o is a TerminationRipples;
    [tfunc o]: the TerminationRipples(o, qmax) made for o, one per owner, 455-458.  It has
    the parameters of its base function (terminationripples.py:57-75), so the second test
    of changeowner (modelparts.py:565-567) never fails. *)
Variable owner : P -> nat.
Variable static : P -> bool.
Variable set_owner : P -> nat -> P.
Variable ripples : nat -> bool.
Variable tfunc : nat -> nat.
(** changeowner, modelparts.py:546-568 (SrMiseStaticOwnerError is GenericException, as in
    Parts.v); the error is caught at 470-471 *)
Definition changeowner (p : P) (o : nat) : result P :=
  if static p && negb (owner p =? o)%nat then Err GenericException else Ok (set_owner p o).
Definition wrap (p : P) : result P :=
  if ripples (owner p) then Ok p else
  match changeowner p (tfunc (owner p)) with
  | Ok q => Ok q
  | Err GenericException => Ok p
  | Err e => Err e
  end.
Fixpoint wrap_all (m : list P) : result (list P) :=
  match m with
  | [] => Ok []
  | p :: r => do q <- wrap p; do s <- wrap_all r; Ok (q :: s)
  end.

(** *** The object *)
Record pdf := mkPdf { p_data : data; p_cres : Z; p_pf : list nat; p_em : nat; p_bl : B; p_ip : list P;
  p_extracted : option cluster; p_type : option string }.
Definition with_result (s : pdf) (c : option cluster) (t : option string) : pdf :=
  mkPdf (p_data s) (p_cres s) (p_pf s) (p_em s) (p_bl s) (p_ip s) c t.
(** peakextraction.py:115-118 *)
Definition clearcalc (s : pdf) : pdf := with_result s None None.

Definition arr (i : nat) (l : list R) : array := mkArr i (map enc l).
(** The arrays of resampledata; identities 6, 7, 8 *)
Definition resampled_arrays (s : pdf) (dr : R) : result (array * array * array) :=
  do t <- resampled (p_data s) dr;
  let '(r, y, e) := t in Ok (arr 6 r, arr 7 y, arr 8 e).
(** r1[-1] - r1[0] *)
Definition span (r1 : list R) : result R := do a <- pyget r1 0; do b <- pyget r1 (-1); Ok (b - a).

(** 440-528: from the initial extraction to the pruned model with ripples. *)
Definition with_ripples (fuel : nat) (s : pdf) (g : list R * list R * list R) (drn : R) (c : cluster) : option (result cluster) :=
  let '(r1, y1, e1) := g in
  odo m <- lift (wrap_all (c_model c));
  let c1 := set_model c m in
  if d_nyquist (p_data s) then
    odo sp <- lift (span r1);
    odo t <- nyquist_loop w (t_qk T) (t_qargmax T) (resampled_arrays s) (c_base c) (p_em s) (p_pf s) sp drn fuel c1 [];
    lift (Ok (fst t))
  else
    odo c2 <- lift (make_cluster w (c_model c1) (c_base c) (arr 3 r1) (arr 4 y1) (arr 5 e1) None (p_em s) (p_pf s));
    match prune w (t_qk T) (t_qargmax T) (S (length (c_model c2))) c2 with
    | None => None
    | Some (_, Err e) => Some (Err e)
    | Some (m2, Ok _) => Some (Ok (set_model c2 m2))
    end.
(** 353-556; [fuel] bounds the rounds of Nyquist refinement (None: not finished).
    The nested PeakExtraction gets the grid as its data and the whole of it as range;
    extract_single nests at most three deep (C50). *)
Definition model_of (fuel : nat) (s : pdf) : option (result cluster) :=
  odo raw <- lift (dr_raw (p_data s));
  odo g <- lift (extract_grid (p_data s));
  let '(r1, y1, e1) := g in
  odo c <- extract T (p_bl s) (p_cres s) (p_em s) (p_pf s) 4 1 (map enc r1) (map enc y1) (map enc e1) (p_ip s);
  odo c1 <- (if Rltb 0 (d_qmax (p_data s)) then with_ripples fuel s g (dr_nyquist (p_data s) raw) c else Some (Ok c));
  let f := fit w c1 false 0 true true in
  match fr_out f with Err e => Some (Err e) | Ok _ => Some (Ok (fr_c f)) end.
(** The user's baseline object: what is left in it, and whether the extracted model holds it.
    432: the nested extraction gets the object itself; 437, 502-511, 530-539: clusters made
    later hold the object of the nested result ([o]); a fit() that is undone holds a copy
    (512), but the next round of the Nyquist loop starts from [bl] again. *)
Definition own_round (s : pdf) (dr : R) (base : option B) (c : cluster) : bool :=
  match resampled_arrays s dr with
  | Err _ => true
  | Ok (r2, y2, e2) => match make_cluster w (c_model c) base r2 y2 e2 None (p_em s) (p_pf s) with Err _ => true | Ok c1 => keeps T c1 false false true end
  end.
Fixpoint own_nyquist (s : pdf) (base : option B) (sp drn : R) (fuel : nat) (c : cluster) : bool :=
  match fuel with
  | O => true
  | S fuel' =>
    let dr := interval sp drn (free w c) in
    match round w (t_qk T) (t_qargmax T) (resampled_arrays s) base (p_em s) (p_pf s) dr c with
    | Some (Ok c') =>
      if Req_EM_T dr drn then own_round s dr base c else
      if (free w c' =? free w c)%nat then own_round s dr base c else own_nyquist s base sp drn fuel' c'
    | _ => true
    end
  end.
Definition own_ripples (fuel : nat) (s : pdf) (r1 : list R) (drn : R) (c : cluster) : bool :=
  if d_nyquist (p_data s) then
    match wrap_all (c_model c), span r1 with
    | Ok m, Ok sp => own_nyquist s (c_base c) sp drn fuel (set_model c m)
    | _, _ => true
    end
  else true.
Definition owned (fuel : nat) (s : pdf) : B * bool :=
  match dr_raw (p_data s), extract_grid (p_data s) with
  | Ok raw, Ok (r1, y1, e1) =>
    match own_extract T (p_bl s) (p_cres s) (p_em s) (p_pf s) (map enc r1) (map enc y1) (map enc e1) (p_ip s) with
    | None => (p_bl s, false)
    | Some (u, Err _) => (u, false)
    | Some (u, Ok (c, o)) =>
      let rippled := Rltb 0 (d_qmax (p_data s)) in
      match (if rippled then with_ripples fuel s (r1, y1, e1) (dr_nyquist (p_data s) raw) c else Some (Ok c)) with
      | Some (Ok c1) =>
        let o1 := o && (if rippled then own_ripples fuel s r1 (dr_nyquist (p_data s) raw) c else true) in
        (if o1 then match fr_base (fit w c1 false 0 true true) with Some b => b | None => u end else u, o1 && keeps T c1 false true true)
      | _ => (u, false)
      end
    end
  | _, _ => (p_bl s, false)
  end.
Definition with_baseline (s : pdf) (b : B) : pdf :=
  mkPdf (p_data s) (p_cres s) (p_pf s) (p_em s) b (p_ip s) (p_extracted s) (p_type s).
(** extract, 353-556.  If the model of the recursion is not finished nothing is said about the
    baseline. *)
Definition pdf_extract (fuel : nat) (s : pdf) : pdf * option (result unit) :=
  let s0 := clearcalc s in
  let s1 := with_baseline s0 (fst (owned fuel s0)) in
  match model_of fuel s0 with
  | None => (s0, None)
  | Some (Err e) => (s1, Some (Err e))
  | Some (Ok c) => (with_result s1 (Some c) (Some "extract"%string), Some (Ok tt))
  end.

(** fit(), 558-638, with fit_single.  The nested object holds the user's list of peaks and
    baseline themselves; ModelCluster keeps them (modelcluster.py:497-515), so the fit
    changes the objects the user passed: [fr_list] and [fr_base]. *)
Definition fit_model (s : pdf) : result fitres :=
  do g <- fit_grid (p_data s);
  let '(r1, y1, e1) := g in
  do c <- make_cluster w (p_ip s) (Some (p_bl s)) (arr 0 r1) (arr 1 y1) (arr 2 e1) None (p_em s) (p_pf s);
  Ok (fit w c false 0 true false).
Definition pdf_fit (s : pdf) : pdf * result unit :=
  let s0 := clearcalc s in
  match fit_model s0 with
  | Err e => (s0, Err e)
  | Ok f =>
    let s1 := mkPdf (p_data s0) (p_cres s0) (p_pf s0) (p_em s0) (match fr_base f with Some b => b | None => p_bl s0 end) (fr_list f) None None in
    match fr_out f with
    | Err e => (s1, Err e)
    | Ok _ => (with_result s1 (Some (fr_c f)) (Some "fit"%string), Ok tt)
    end
  end.
End Pdf.

(** Model of makeplot (applications/plot.py:180-471): the curves it draws and where it puts
    them.  Styles, labels, ticks, and the annotation are left out; the insets are the data of
    Plot.v.  Real arithmetic. *)
From Coq Require Import Reals.
From Verif Require Import Prelude Resample Ripples Plot.
Open Scope R_scope.

(** Keyword arguments (plot.py:213-261): None where the default is used. *)
Record kwargs := mkKw {
  k_xlo : option R; k_xhi : option R;
  k_top : option R; k_dg : option R; k_cmp : option R; k_datatop : option R; k_databottom : option R; k_bottom : option R;
  k_fit : bool; k_individual : bool; k_fill : bool; k_observed : bool; k_residual : bool; k_mask : option R; k_scale : option R;
  k_min : option R; k_max : option R; k_yhi : option R; k_ylo : option R; k_resbase : option R;
  k_dgmin : option R; k_dgmax : option R }.
(** No keyword given (plot.py:213-261) *)
Definition defaults : kwargs := mkKw None None None None None None None None true true true true true None None None None None None None None None.
(** dict.get (plot.py:213-261) *)
Definition get {A} (o : option A) (d : A) : A := match o with Some v => v | None => d end.

(** What is plotted (plot.py:180-210, 264-279): the PDF (x, y), the grid of the model, its value, baseline and peaks as
    functions of a grid, its residual and the positions of its peaks *)
Record source := mkSrc {
  s_x : list R; s_y : list R; s_r : list R;
  s_value : list R -> list R; s_bl : list R -> list R; s_peaks : list (list R -> list R); s_residual : list R; s_positions : list R }.

(** dr, rexpand and rfine (plot.py:264-273).  A zero step raises ZeroDivisionError (GenericException here). *)
Definition plot_dr (r : list R) : R := (last r 0 - hd 0 r) / INR (length r).
Definition rexpand (r : list R) (xlo xhi : R) : list R :=
  let dr := plot_dr r in rev (arange (hd 0 r - dr) xlo (- dr)) ++ r ++ arange (last r 0 + dr) (xhi + dr) dr.
Definition rfine (r : list R) : list R := arange (hd 0 r) (last r 0) (/ 10 * plot_dr r).

(** Products and sums of arrays (plot.py:274-279) *)
Definition times (k : R) (l : list R) : list R := map (Rmult k) l.
Fixpoint plus_lists (a b : list R) : list R := match a, b with x :: a', y :: b' => x + y :: plus_lists a' b' | _, _ => [] end.
(** np.min, np.max (plot.py:299-304) *)
Definition lmin (l : list R) : result R := match l with [] => Err ValueError | a :: r => Ok (fold_left Rmin r a) end.
Definition lmax (l : list R) : result R := match l with [] => Err ValueError | a :: r => Ok (fold_left Rmax r a) end.
(** The list comprehension (plot.py:299-300) *)
Fixpoint collect_all {A} (l : list (result A)) : result (list A) := match l with [] => Ok [] | x :: r => do v <- x; do vs <- collect_all r; Ok (v :: vs) end.
(** np.ma.masked_outside (plot.py:281-282); a mask of 0 is none.  Simplification: numpy's minimum of a residual
    masked everywhere is the constant "masked"; here it is ValueError. *)
Definition mask (m : option R) (l : list R) : list (option R) :=
  match m with
  | None => map Some l
  | Some k => if Req_EM_T k 0 then map Some l else map (fun v => if Rle_dec (Rabs v) (Rabs k) then Some v else None) l
  end.
(** The entries that are not masked (plot.py:303-304) *)
Fixpoint unmasked (l : list (option R)) : list R := match l with [] => [] | Some a :: r => a :: unmasked r | None :: r => unmasked r end.

(** What is drawn (plot.py:325-347, 397-447); None where a curve is not drawn. *)
Record figure := mkFig {
  f_xlim : R * R; f_ylim : R * R;
  f_observed : option (list R * list R); f_fit : option (list R * list R);
  f_filled : list (list R * list R * list R);          (* grid, from (the baseline), to *)
  f_residual : option (list R * list (option R)); f_resbase : R; f_datatop : R;
  f_cmp : option compared; f_dg : option (list (R * R)) }.

(** makeplot (plot.py:180-447).  [stability]: the results of a PeakStability object; [ip]: ideal positions *)
Definition makeplot (s : source) (stability : option (list (R * list R))) (ip : option (list R)) (k : kwargs) : result figure :=
  let r := s_r s in
  do r0 <- pyget r 0;
  do rn <- pyget r (-1);
  let xlo := get (k_xlo k) r0 in
  let xhi := get (k_xhi k) rn in
  let top := get (k_top k) 0 in
  let dg := get (k_dg k) (match stability with Some _ => 15 | None => 0 end) in
  let cmp := get (k_cmp k) (match ip with Some _ => 15 | None => 15 / 2 end) in
  let datatop_o := get (k_datatop k) 3 in
  let databottom := get (k_databottom k) 3 in
  let bottom := get (k_bottom k) 3 in
  let scale := get (k_scale k) 1 in
  if Req_EM_T (plot_dr r) 0 then Err GenericException else
  do obs0 <- resample (s_x s) (s_y s) (rexpand r xlo xhi);
  let obs := times scale obs0 in
  let fine := rfine r in
  let fitv := times scale (s_value s fine) in
  let bl := times scale (s_bl s fine) in
  let ind := map (fun p => plus_lists bl (times scale (p fine))) (s_peaks s) in
  let res := mask (k_mask k) (times scale (s_residual s)) in
  (* 284-293 *)
  let all := (if k_fit k then [fitv] else []) ++ (if k_individual k then bl :: ind else []) ++ (if k_observed k then [obs] else []) in
  (* 299-300: the defaults are computed in any case *)
  do mins <- collect_all (map lmin all); do mn <- lmin mins;
  do maxs <- collect_all (map lmax all); do mx <- lmax maxs;
  let min_gr := get (k_min k) (mn / scale) * scale in
  let max_gr := get (k_max k) (mx / scale) * scale in
  do min_res <- if k_residual k then lmin (unmasked res) else Ok 0;
  do max_res <- if k_residual k then lmax (unmasked res) else Ok 0;
  (* 309-323 *)
  let rel := 100 - top - dg - cmp - datatop_o - databottom - bottom in
  let height := 100 * ((max_gr - min_gr) + (max_res - min_res)) / rel in
  let yhi0 := max_gr + (top + dg + cmp + datatop_o) * height / 100 in
  let ylo0 := yhi0 - height in
  let yhi := get (k_yhi k) yhi0 in
  let ylo := get (k_ylo k) ylo0 in
  let datatop := yhi - (yhi - ylo) * (1 / 100) * (top + dg + cmp) in
  let resbase := get (k_resbase k) (ylo + bottom * height / 100 - min_res) in
  (* 397-447; the curves are 333-342 *)
  do dgpoints <- if Rlt_dec 0 dg then
                   match stability with
                   | None => Err AttributeError
                   | Some l => do p <- dgseries l scale (k_dgmin k) (k_dgmax k) r0 (Some rn); Ok (Some p)
                   end
                 else Ok None;
  Ok (mkFig (xlo, xhi) (ylo, yhi)
        (if k_observed k then Some (rexpand r xlo xhi, obs) else None)
        (if k_fit k then Some (fine, fitv) else None)
        (if k_fill k then map (fun p => (fine, bl, p)) ind else [])
        (if k_residual k then Some (r, map (option_map (Rplus resbase)) res) else None)
        resbase datatop
        (if Rlt_dec 0 cmp then Some (comparepositions (s_positions s) ip 0 (-1) 1 None None) else None)
        dgpoints).

(** Model of the initial estimates: estimate_parameters of peaks/gaussianoverr.py,
    peaks/gaussian.py (to which peaks/terminationripples.py:100 delegates) and
    baselines/polynomial.py.

    Exact real arithmetic.  The numpy operations that can produce NaN or an infinity are
    partial here ([xdiv], [xsqrt], [xln], [xasin]): None stands for a non-finite number. *)
From Coq Require Import Reals.
From Verif Require Import Prelude PeakFuncs Baselines.
Open Scope R_scope.

(** numpy's division, sqrt, log and arcsin: None outside the domain. *)
Definition xdiv (a b : R) : xR := if Req_EM_T b 0 then None else Some (a / b).
Definition xsqrt (a : R) : xR := if Rlt_dec a 0 then None else Some (sqrt a).
Definition xln (a : R) : xR := if Rlt_dec 0 a then Some (ln a) else None.
Definition xasin (a : R) : xR := if Rlt_dec a (-1) then None else if Rlt_dec 1 a then None else Some (asin a).
Definition xbind {A B} (m : option A) (f : A -> option B) : option B := match m with Some a => f a | None => None end.
Notation "'let!' x := m 'in' f" := (xbind m (fun x => f)) (at level 200, x name, m at level 100, f at level 200).

Definition rsum (l : list R) : R := fold_right Rplus 0 l.
(** ndarray.min and ndarray.max of a non-empty array. *)
Definition rmin_list (l : list R) : R := fold_right Rmin (hd 0 l) l.
Definition rmax_list (l : list R) : R := fold_right Rmax (hd 0 l) l.

(** usable_idx: gaussianoverr.py:115, gaussian.py:115, then [r[usable_idx]]. *)
Definition usable_idx (y : list R) : list nat :=
  filter (fun i => if Rlt_dec 0 (nth i y 0) then true else false) (seq 0 (length y)).
Definition take_idx (l : list R) (idx : list nat) : list R := map (fun i => nth i l 0) idx.

(** sigma_left and sigma_right: gaussianoverr.py:131-167: [e] is the end point concerned,
    [ye] the value there, [e'] the other end point. *)
Definition sigma_side (c e e' ye min_y max_y : R) : xR :=
  if Rlt_dec ye max_y then
    let! q := xdiv ye max_y in let! l := xln q in
    let! s := xdiv (- (1 / 2) * (e - c) ^ 2) l in xsqrt s
  else
    let! q := xdiv min_y max_y in let! l := xln q in
    let! s := xdiv (- (1 / 2) * ((Rabs (e - c) + Rabs (e' - c)) / 2) ^ 2) l in xsqrt s.

(** Position and FWHM before the width limit: gaussianoverr.py:123-175, gaussian.py:123-175. *)
Definition position_width (use_r use_y : list R) : option (R * R) :=
  let min_y := rmin_list use_y in
  let max_y := rmax_list use_y in
  if Req_EM_T min_y max_y then
    let! w := xdiv ((last use_r 0 - hd 0 use_r) * 2) (2 * ln 2) in
    Some ((hd 0 use_r + last use_r 0) / 2, w)
  else
    let weights := map (fun y => (y - min_y) ^ 2) use_y in
    let! c := xdiv (rsum (map (fun rw => fst rw * snd rw) (combine use_r weights))) (rsum weights) in
    let! sl := sigma_side c (hd 0 use_r) (last use_r 0) (hd 0 use_y) min_y max_y in
    let! sr := sigma_side c (last use_r 0) (hd 0 use_r) (last use_y 0) min_y max_y in
    Some (c, 1 / 2 * (sr + sl) * sigma2fwhm).

(** c3: gaussianoverr.py:80, gaussian.py:80. *)
Definition c3 : R := 1 / 2 * sqrt (PI / ln 2).

(** The width limit and the area: gaussianoverr.py:177-186 (area c3*max_y*position*width)
    and gaussian.py:177-186 (area c3*max_y*width). *)
Definition limit_width (over_r : bool) (W max_y : R) (cw : R * R) : option pars3 :=
  let '(c, w) := cw in
  let area w := if over_r then c3 * max_y * c * w else c3 * max_y * w in
  if Rlt_dec W w then Some (P3 c (PI / 2) (area W))
  else let! s := xdiv (2 * w ^ 2) (W ^ 2) in let! q := xasin (s - 1) in Some (P3 c q (area w)).

(** estimate_parameters: gaussianoverr.py:90-188 ([over_r = true]), gaussian.py:90-188
    ([over_r = false]).  The logging call is dropped. *)
Definition estimate_parameters (over_r : bool) (W : R) (r y : list R) : result (option pars3) :=
  if negb (Nat.eqb (length r) (length y)) then Err EstimationError else
  let idx := usable_idx y in
  let use_r := take_idx r idx in
  let use_y := take_idx y idx in
  if Nat.ltb (length idx) 3 then Err EstimationError else
  Ok (let! cw := position_width use_r use_y in limit_width over_r W (rmax_list use_y) cw).

(** numpy.linalg.lstsq for a single column [a] (documented behaviour: the least-squares
    solution of smallest norm; for one column that is a.y/a.a, and 0 when a = 0). *)
Definition dot (a b : list R) : R := rsum (map (fun p => fst p * snd p) (combine a b)).
Definition lstsq1 (a y : list R) : R := if Req_EM_T (dot a a) 0 then 0 else dot a y / dot a a.

(** Polynomial.estimate_parameters: polynomial.py:73-125.  [argsort] is numpy's (whose
    order among equal values is unspecified).  The try block of degree 1 cannot raise
    for arrays of equal length. *)
Definition poly_estimate (argsort : list R -> list nat) (degree : Z) (r y : list R) : result (list R) :=
  let degree := poly_degree degree in
  if (1 <? degree)%Z then Err NotImplementedErr else
  if negb (Nat.eqb (length r) (length y)) then Err ValueError else
  if (degree =? -1)%Z then Ok [] else
  if (degree =? 0)%Z then Ok [0] else
  let cut := Nat.max (length y / 10) 1 in
  let cut_idx := firstn cut (argsort y) in
  Ok [lstsq1 (take_idx r cut_idx) (take_idx y cut_idx); 0].

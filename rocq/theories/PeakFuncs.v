(** Model of peaks/gaussianoverr.py and peaks/gaussian.py over the real numbers.

    Simplifications: exact real arithmetic.  A numpy operation that would give NaN or
    an infinity gives [None] here ([xR := option R]); None is not tracked further than
    "this number is not finite".  One point r at a time (numpy applies the formula to
    each element of the array). *)
From Coq Require Import Reals.
From Verif Require Import Prelude.
Open Scope R_scope.

Definition xR := option R.
Record pars3 := P3 { p_pos : R; p_wid : R; p_area : R }.
Record xpars3 := X3 { x_pos : xR; x_wid : xR; x_area : xR }.
Definition inject (p : pars3) : xpars3 := X3 (Some (p_pos p)) (Some (p_wid p)) (Some (p_area p)).

(** formats, gaussianoverr.py:52, gaussian.py:52. *)
Inductive fmt := Internal | Pwa | MuSigmaArea.
Definition fmt_eqb (a b : fmt) : bool :=
  match a, b with Internal, Internal | Pwa, Pwa | MuSigmaArea, MuSigmaArea => true | _, _ => false end.

(** sigma2fwhm = 2*sqrt(2*log 2): gaussianoverr.py:84. *)
Definition sigma2fwhm : R := 2 * sqrt (2 * ln 2).

(** The fragment of Python needed for [(free is False).sum()]: identity with the
    singleton False yields a bool, and a bool has no attribute [sum] (numpy arrays do). *)
Inductive pyobj := PyBool (b : bool) | PyArray (l : list bool).
Definition py_is_False (o : pyobj) : pyobj := PyBool (match o with PyBool false => true | _ => false end).
Definition py_sum (o : pyobj) : result nat :=
  match o with
  | PyBool _ => Err AttributeError
  | PyArray l => Ok (length (filter (fun b => b) l))
  end.

Section PeakFunction.
(** maxwidth > 0; the constructor raises ValueError otherwise (gaussianoverr.py:70-73). *)
Variable W : R.

(** c1, c2: gaussianoverr.py:76-77, gaussian.py:76-77. *)
Definition c1 : R := W * sqrt (PI / (8 * ln 2)).
Definition c2 : R := W ^ 2 / (8 * ln 2).

(** Folding of the width parameter into [-pi/2, pi/2]: gaussianoverr.py:411-415. *)
Definition normal_width (q : R) : R :=
  let n := Int_part ((q + PI / 2) / PI) in
  if Z.even n then q - PI * IZR n else PI * IZR n - q.

(** FWHM -> internal width: gaussianoverr.py:417-436.  A width below -maxwidth makes
    arcsin's argument exceed 1 and the result NaN. *)
Definition width_in (fwhm : R) : result xR :=
  if Rlt_dec W fwhm then Err TransformError
  else if Rle_dec (- W) fwhm then Ok (Some (asin (2 * fwhm ^ 2 / W ^ 2 - 1)))
  else Ok None.

(** internal width -> output format: gaussianoverr.py:439-446. *)
Definition width_out (out : fmt) (q : R) : R :=
  match out with
  | Internal => q
  | Pwa => sqrt (1 / 2 * (sin q + 1) * W ^ 2)
  | MuSigmaArea => sqrt (1 / 2 * (sin q + 1) * W ^ 2) / sigma2fwhm
  end.

(** _transform_parametersraw: gaussianoverr.py:374-447, gaussian.py:308-380 (identical). *)
Definition transform (i o : fmt) (p : pars3) : result (R * xR * R) :=
  if fmt_eqb i o && negb (fmt_eqb i Internal) then Ok (p_pos p, Some (p_wid p), p_area p) else
  match i with
  | Internal => Ok (p_pos p, Some (width_out o (normal_width (p_wid p))), Rabs (p_area p))
  | Pwa => do w <- width_in (p_wid p); Ok (p_pos p, option_map (width_out o) w, p_area p)
  | MuSigmaArea => do w <- width_in (p_wid p * sigma2fwhm);
                   Ok (p_pos p, option_map (width_out o) w, p_area p)
  end.

Definition degenerate (p : pars3) : bool := if Req_EM_T (sin (p_wid p) + 1) 0 then true else false.

(** Gaussian._valueraw: gaussian.py:382-412. *)
Definition gaussian_value (p : pars3) (r : R) : xR :=
  if degenerate p then None else
  Some (Rabs (p_area p) / (c1 * sqrt (sin (p_wid p) + 1))
        * exp (- (r - p_pos p) ^ 2 / (c2 * (sin (p_wid p) + 1)))).

(** GaussianOverR._valueraw: gaussianoverr.py:449-478. *)
Definition gor_value (p : pars3) (r : R) : xR :=
  if degenerate p then None else
  if Req_EM_T r 0 then None else
  Some (Rabs (p_area p) / (Rabs r * c1 * sqrt (sin (p_wid p) + 1))
        * exp (- (r - p_pos p) ^ 2 / (c2 * (sin (p_wid p) + 1)))).

(** GaussianOverR._jacobianraw: gaussianoverr.py:256-318.  One entry per parameter,
    Python's None for a parameter that is not free; the outer option is None when the
    point or width makes numpy produce non-finite entries. *)
Definition gor_jacobian (p : pars3) (r : R) (free : bool * bool * bool) : option (list (option R)) :=
  let '(f0, f1, f2) := free in
  if negb f0 && negb f1 && negb f2 then Some [None; None; None] else
  if degenerate p then None else
  if Req_EM_T r 0 then None else
  let sin_p := sin (p_wid p) + 1 in
  let p0minusr := p_pos p - r in
  let exp_p := exp (- p0minusr ^ 2 / (c2 * sin_p)) / (Rabs r * c1 * sqrt sin_p) in
  Some [ if f0 then Some (-2 * exp_p * p0minusr * Rabs (p_area p) / (c2 * sin_p)) else None;
         if f1 then Some (- exp_p * Rabs (p_area p) * cos (p_wid p) * (c2 * sin_p - 2 * p0minusr ^ 2)
                          / (2 * c2 * sin_p ^ 2)) else None;
         if f2 then Some (if Rle_dec 0 (p_area p) then exp_p else - exp_p) else None ].

(** Gaussian._jacobianraw: gaussian.py:242-306.  The part after the first test
    (lines 279-305). *)
Definition gaussian_jacobian_body (p : pars3) (r : R) (free : bool * bool * bool) : option (list (option R)) :=
  let '(f0, f1, f2) := free in
  if degenerate p then None else
  let sin_p := sin (p_wid p) + 1 in
  let p0minusr := p_pos p - r in
  let exp_p := exp (- p0minusr ^ 2 / (c2 * sin_p)) / (c1 * sqrt sin_p) in
  Some [ if f0 then Some (-2 * exp_p * p0minusr * Rabs (p_area p) / (c2 * sin_p)) else None;
         if f1 then Some (- exp_p * Rabs (p_area p) * cos (p_wid p) * (c2 * sin_p - 2 * p0minusr ^ 2)
                          / (2 * c2 * sin_p ^ 2)) else None;
         if f2 then Some (if Rle_dec 0 (p_area p) then exp_p else - exp_p) else None ].
(** The first test, [(free is False).sum() == self.npars] (line 276), evaluated as
    Python does; when it raises, nothing after it runs. *)
Definition gaussian_jacobian (p : pars3) (r : R) (free : bool * bool * bool) : result (option (list (option R))) :=
  let '(f0, f1, f2) := free in
  do n <- py_sum (py_is_False (PyArray [f0; f1; f2]));
  if Nat.eqb n 3 then Ok (Some [None; None; None]) else Ok (gaussian_jacobian_body p r free).

(** GaussianOverR._transform_derivativesraw: gaussianoverr.py:320-372: the [1,1] entry
    of an otherwise identity matrix; Python's None when the formats agree. *)
Definition width_gradient (i o : fmt) (q : R) : R :=
  match i, o with
  | Internal, Pwa => W / (2 * sqrt 2) * cos q / sqrt (1 + sin q)
  | Internal, MuSigmaArea => W / (2 * sqrt 2 * sigma2fwhm) * cos q / sqrt (1 + sin q)
  | Pwa, Internal => 2 / sqrt (W ^ 2 - q ^ 2)
  | Pwa, MuSigmaArea => 1 / sigma2fwhm
  | MuSigmaArea, Internal => 2 * sigma2fwhm / sqrt (W ^ 2 - (sigma2fwhm * q) ^ 2)
  | MuSigmaArea, Pwa => sigma2fwhm
  | _, _ => 1
  end.
Definition transform_derivatives (i o : fmt) (p : pars3) : option (nat -> nat -> R) :=
  if fmt_eqb i o then None else
  Some (fun a b => if negb (Nat.eqb a b) then 0 else
                   if Nat.eqb a 1 then width_gradient i o (p_wid p) else 1).

(** mu, sigma, area of internal parameters (the transform_parameters call at
    gaussianoverr.py:221 and 500). *)
Definition msa (p : pars3) : R * R * R :=
  (p_pos p, width_out MuSigmaArea (normal_width (p_wid p)), Rabs (p_area p)).

(** GaussianOverR.max: gaussianoverr.py:485-514. *)
Definition gor_max (p : pars3) : result (R * xR) :=
  let '(mu, sigma, _) := msa p in
  if Rle_dec (mu ^ 2) (4 * sigma ^ 2) then Err ValueError else
  let rmax := 1 / 2 * (mu + sqrt (mu ^ 2 - 4 * sigma ^ 2)) in
  Ok (rmax, gor_value p rmax).
(** Gaussian.max: gaussian.py:419-441. *)
Definition gaussian_max (p : pars3) : result (R * xR) :=
  let '(mu, _, _) := msa p in Ok (mu, gaussian_value p mu).

(** From mu, sigma, area back to internal inside scale_at: gaussianoverr.py:247-253. *)
Definition rescaled (mu sigma area : R) : result xpars3 :=
  match transform MuSigmaArea Internal (P3 mu sigma area) with
  | Ok (m, w, a) => Ok (X3 (Some m) w (Some a))
  | Err TransformError => Err ScalingError
  | Err e => Err e
  end.

(** GaussianOverR.scale_at: gaussianoverr.py:190-254.  [scale == 1] returns the
    argument itself.  A zero denominator makes sigma2 infinite, hence too wide; a
    negative one makes it (and everything computed from it) NaN, which passes the width
    test; x = rmax makes sigma2 zero and the area 0*exp/exp(0/0) = NaN.  A width of zero
    (degenerate p) is not tracked. *)
Definition gor_scale_at (p : pars3) (x scale : R) : result xpars3 :=
  if Rle_dec scale 0 then Err ScalingError else
  if Req_EM_T scale 1 then Ok (inject p) else
  let ratio := 1 / scale in
  let '(mu1, sigma1, area1) := msa p in
  if Rle_dec (mu1 ^ 2) (4 * sigma1 ^ 2) then Err ScalingError else
  if degenerate p then Ok (X3 None None None) else
  let rmax := 1 / 2 * (mu1 + sqrt (mu1 ^ 2 - 4 * sigma1 ^ 2)) in
  let log_ratio_prime := ln ratio + (x - rmax) * (x - 2 * mu1 + rmax) / (2 * sigma1 ^ 2) in
  let den := x - rmax + rmax * log_ratio_prime in
  let q := 1 / 2 * rmax * (x - rmax) ^ 2 / den in
  if Req_EM_T den 0 then Err ScalingError else
  if Rlt_dec q 0 then Ok (X3 None None None) else
  let sigma2 := sqrt q in
  let mu2 := (sigma2 ^ 2 + rmax ^ 2) / rmax in
  if Req_EM_T sigma2 0 then Ok (X3 (Some mu2) (Some (asin (-1))) None) else
  let area2 := area1 * (sigma2 / sigma1) * exp (- (rmax - mu1) ^ 2 / (2 * sigma1 ^ 2))
               / exp (- (rmax - mu2) ^ 2 / (2 * sigma2 ^ 2)) in
  rescaled mu2 sigma2 area2.

(** Gaussian.scale_at: gaussian.py:190-240.  x = mu1 divides by zero: log(ratio) > 0
    gives area2 = 0 and sigma2 = 0, log(ratio) < 0 gives sqrt(negative zero) = -0;
    area1 = 0 gives 0/0 = NaN for sigma2. *)
Definition gaussian_scale_at (p : pars3) (x scale : R) : result xpars3 :=
  if Rle_dec scale 0 then Err ScalingError else
  if Req_EM_T scale 1 then Ok (inject p) else
  let ratio := 1 / scale in
  let '(mu1, sigma1, area1) := msa p in
  if degenerate p then Ok (X3 (Some mu1) None None) else
  if Req_EM_T x mu1 then
    if Req_EM_T area1 0 then Ok (X3 (Some mu1) None (Some 0))
    else rescaled mu1 0 0
  else
  let den := 2 * ln ratio * sigma1 ^ 2 / (x - mu1) ^ 2 + 1 in
  if Req_EM_T den 0 then (if Req_EM_T area1 0 then Ok (X3 (Some mu1) None None) else Err ScalingError) else
  if Req_EM_T area1 0 then Ok (X3 (Some mu1) None (Some 0)) else
  if Rlt_dec den 0 then Ok (X3 (Some mu1) None None) else
  let area2 := sqrt (area1 ^ 2 / den) in
  let sigma2 := sigma1 * area2 / area1 in
  rescaled mu1 sigma2 area2.

End PeakFunction.

(** numpy [a != b] for a finite a. *)
Definition xneq (a : R) (b : xR) : bool :=
  match b with Some b => if Req_EM_T a b then false else true | None => true end.
(** Peak.scale_at: peaks/base.py:239-271, for the function's own scale_at [f].
    Other exceptions of [f] escape. *)
Definition peak_scale_at (f : pars3 -> R -> R -> result xpars3) (p : pars3) (free : bool * bool * bool)
    (x scale : R) : result (bool * xpars3) :=
  let '(f0, f1, f2) := free in
  if negb f0 && negb f1 && negb f2 then Ok (false, inject p) else
  match f p x scale with
  | Err ScalingError => Ok (false, inject p)
  | Err e => Err e
  | Ok a =>
      if (xneq (p_pos p) (x_pos a) && negb f0) || (xneq (p_wid p) (x_wid a) && negb f1)
         || (xneq (p_area p) (x_area a) && negb f2)
      then Ok (false, inject p) else Ok (true, a)
  end.

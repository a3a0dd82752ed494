(** Model of the conversions of the width of a Gaussian or GaussianOverR peak in binary64
    floating-point arithmetic (gaussianoverr.py:374-447 and gaussian.py:308-380, which are
    the same; PeakFuncs.v models them in exact arithmetic).

    Every operation of the code is followed by rounding to nearest, ties to even, with 53
    bits and gradual underflow (Flocq).  Simplifications: there is no overflow, numbers are
    the finite ones (None is NaN); [x**2] is taken as the rounded square.  numpy's arcsin and
    sin are parameters. *)
From Coq Require Import Reals.
From Flocq Require Import Core.
From Verif Require Import Prelude PeakFuncs.
Open Scope R_scope.

Definition fexp64 : Z -> Z := FLT_exp (-1074) 53.
Definition rnd (x : R) : R := round radix2 fexp64 ZnearestE x.
Definition is_float (x : R) : Prop := generic_format radix2 fexp64 x.
Definition sq (x : R) : R := rnd (x * x).

Section Width.
Variables (asin_f sin_f : R -> R).
(** self.maxwidth, self.sigma2fwhm = 2*np.sqrt(2*np.log(2)) (84), np.pi *)
Variables (W s2f : R).
Definition pi_f : R := rnd PI.

(** [2.0 * temp[1] ** 2 / self.maxwidth**2 - 1.0], gaussianoverr.py:425 *)
Definition asin_arg (w : R) : R := rnd (rnd (rnd (2 * sq w) / sq W) - 1).
(** pwa to internal, 418-425; 0/0 and arcsin outside [-1, 1] are NaN *)
Definition to_internal (w : R) : result xR :=
  if Rlt_dec W w then Err TransformError else
  if Req_EM_T (sq W) 0 then Ok None else
  if Rlt_dec (asin_arg w) (-1) then Ok None else if Rlt_dec 1 (asin_arg w) then Ok None else
  Ok (Some (asin_f (asin_arg w))).
(** The physical quadrant, 409-416; [pi_f / 2] is exact. *)
Definition fold_width (q : R) : R :=
  let n := Zfloor (rnd (rnd (q + pi_f / 2) / pi_f)) in
  if Z.even n then rnd (q - rnd (pi_f * IZR n)) else rnd (rnd (pi_f * IZR n) - q).
(** internal to pwa, 443-444 *)
Definition fwhm_of (q : R) : xR :=
  let p := rnd (rnd (1 / 2 * rnd (sin_f q + 1)) * sq W) in
  if Rlt_dec p 0 then None else Some (rnd (sqrt p)).
Definition to_pwa (q : R) : xR := fwhm_of (fold_width q).
(** internal to mu_sigma_area, 445-446, and back, 426-434 *)
Definition to_sigma (q : R) : xR := match to_pwa q with Some w => Some (rnd (w / s2f)) | None => None end.
Definition from_sigma (sigma : R) : result xR := to_internal (rnd (sigma * s2f)).
End Width.

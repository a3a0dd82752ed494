(** Model of the values of Gaussian and GaussianOverR peaks in binary64 floating-point
    arithmetic (gaussian.py:382-412 and gaussianoverr.py:449-478; the constants:
    gaussianoverr.py:73-77 and the same in gaussian.py; PeakFuncs.v models them in exact
    arithmetic).  Every operation is followed by rounding (FloatWidth.rnd).
    Simplifications: no overflow; [x**2] is the rounded square; the negation and np.abs are
    exact; a division by 0 (infinity or NaN in numpy) is None.  np.sin, np.exp and np.log(2)
    are parameters. *)
From Coq Require Import Reals.
From Flocq Require Import Core.
From Verif Require Import Prelude PeakFuncs FloatWidth.
Open Scope R_scope.

Definition fdiv (a b : R) : xR := if Req_EM_T b 0 then None else Some (rnd (a / b)).
Section Peak.
Variables (sin_f exp_f : R -> R) (log2 W : R).
(** self.c1, self.c2 *)
Definition c1_f : R := rnd (W * rnd (sqrt (rnd (pi_f / rnd (8 * log2))))).
Definition c2_f : R := rnd (sq W / rnd (8 * log2)).
(** np.exp(-((r - pars[0]) ** 2) / (self.c2 * (np.sin(pars[1]) + 1.0))), with the factor
    [h] before it *)
Definition times_exp (h : xR) (pos q r : R) : xR :=
  match h, fdiv (- sq (rnd (r - pos))) (rnd (c2_f * rnd (sin_f q + 1))) with
  | Some h, Some e => Some (rnd (h * exp_f e))
  | _, _ => None
  end.
(** Gaussian._valueraw *)
Definition gaussian_f (pos q a r : R) : xR :=
  times_exp (fdiv (Rabs a) (rnd (c1_f * rnd (sqrt (rnd (sin_f q + 1)))))) pos q r.
(** GaussianOverR._valueraw *)
Definition gaussianoverr_f (pos q a r : R) : xR :=
  times_exp (fdiv (Rabs a) (rnd (rnd (Rabs r * c1_f) * rnd (sqrt (rnd (sin_f q + 1)))))) pos q r.
End Peak.

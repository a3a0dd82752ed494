(** Model of the values of the Polynomial and NanoSpherical baselines in binary64
    floating-point arithmetic (polynomial.py:202-226, nanospherical.py:226-281; Baselines.v
    models them in exact arithmetic): every operation is followed by rounding
    (FloatWidth.rnd).  Simplifications: no overflow, numbers are the finite ones; [x**3] is
    the rounded cube. *)
From Coq Require Import Reals.
From Flocq Require Import Core.
From Verif Require Import Prelude FloatWidth.
Open Scope R_scope.

(** numpy.polyval, called at polynomial.py:226: y = 0; for p in pars: y = y*r + p. *)
Definition polyval_f (pars : list R) (r : R) : R := fold_left (fun y p => rnd (rnd (y * r) + p)) pars 0.

(** NanoSpherical._valueraw2, nanospherical.py:260-281: [ (1 - (3.0/4.0) * rdivR +
    (1.0/16.0) * rdivR**3) ], then [-s * r * (...)]. *)
Definition nano_factor_f (x : R) : R := rnd (rnd (1 - rnd (3 / 4 * x)) + rnd (1 / 16 * rnd (x ^ 3))).
Definition nano_value2_f (s0 R0 r : R) : R := rnd (rnd (- Rabs s0 * r) * nano_factor_f (rnd (r / Rabs R0))).
(** NanoSpherical._valueraw of a scalar, nanospherical.py:249-253; [2.0 * pars[1]] is rounded. *)
Definition nano_value_f (s0 R0 r : R) : R :=
  if Rle_dec r 0 then 0 else if Rle_dec (rnd (2 * R0)) r then 0 else nano_value2_f s0 R0 r.

(** Model of the residual that the optimiser minimises (modelparts.py, ModelParts.residual)
    in binary64 floating-point arithmetic (Residual.v models it in exact arithmetic), with the
    simplifications of FloatEval.v.  A point is (calculated value, expected value,
    uncertainty), as in FloatEval.v. *)
From Coq Require Import Reals.
From Flocq Require Import Core.
From Verif Require Import Prelude FloatWidth FloatEval.
Open Scope R_scope.

(** [(y_expected - total) / y_error], modelparts.py:301-308 *)
Definition residual_f (p : R * R * R) : R := let '(e, o, s) := p in rnd (rnd (o - e) / s).
(** The sum of the squares of the residual, which leastsq minimises (212-214: [fvec] squared
    and summed); [c] is a possible result. *)
Definition sum_squares_f (ps : list (R * R * R)) (c : R) : Prop := summed (map (fun p => sq (residual_f p)) ps) c.

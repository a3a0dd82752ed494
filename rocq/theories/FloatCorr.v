(** Model of getuncertainty and getcorrelation (modelcluster.py:230-263, 275-292) in binary64
    floating-point arithmetic (Covariance.v models them, with the lookup of the entries, in
    exact arithmetic).  Simplifications: no overflow; np.sqrt is correctly rounded. *)
From Coq Require Import Reals.
From Flocq Require Import Core.
From Verif Require Import Prelude FloatWidth.
Open Scope R_scope.

(** [np.sqrt(self.getcovariance(i, i))], 292; [v] is the variance *)
Definition uncertainty_f (v : R) : R := rnd (sqrt v).
(** 260-263: of the variances [vi], [vj] and the covariance [c] *)
Definition correlation_f (vi vj c : R) : R :=
  if Req_EM_T vi 0 then 0 else if Req_EM_T vj 0 then 0 else rnd (c / rnd (rnd (sqrt vi) * rnd (sqrt vj))).

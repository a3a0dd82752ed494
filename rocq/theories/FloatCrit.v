(** ModelCluster.quality with AIC and AICc computed in binary64 floating-point arithmetic:
    the world of ModelCluster.v with the statistic of FloatEval.v (CritLink.v: exact
    arithmetic). *)
From Coq Require Import Reals.
From Flocq Require Import Core.
From Verif Require Import Prelude Evaluators ModelCluster FloatWidth FloatEval CritLink.
Open Scope Z_scope.

Section Link.
Context {P B : Type}.
Variable w : world P B R.
Notation cluster := (cluster P B).
(** The integers of ModelCluster.v are multiples of 2^e0, as all doubles are of 2^-1074. *)
Variable e0 : Z.

(** What the evaluators read, aic.py:74-88, aicc.py:74-88: value(), y_cluster, error_cluster. *)
Definition float_points (c : cluster) : list (R * R * R) :=
  map (fun t => (IZR (fst (fst t)) * bpow radix2 e0, IZR (snd (fst t)) * bpow radix2 e0, IZR (snd t) * bpow radix2 e0)%R)
    (combine (combine (cluster_value w c) (y_cluster c)) (e_cluster c)).
Definition free_pars (c : cluster) : Z := Z.of_nat (model_npars w false (c_model c)).

(** quality, modelcluster.py:1319-1345, compared by base.py:47-95 (the lower statistic is
    better) and growth_justified, aic.py:128-171, aicc.py:133-176; chi-square may have been
    added up in any order. *)
Definition float_world (m : method) : Prop :=
  (forall c, exists chi, chi_squared_f (float_points c) chi /\
     w_quality w c = stat_f m (free_pars c) (Z.of_nat (length (float_points c))) chi) /\
  (forall a b, w_qlt w a b = Rltb b a) /\
  (forall q c n, exists chi, chi_squared_f (float_points c) chi /\
     w_growth w q c n = growth_f m (free_pars c) (Z.of_nat n) (Z.of_nat (length (float_points c))) chi).
End Link.

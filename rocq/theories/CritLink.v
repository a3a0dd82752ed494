(** ModelCluster.quality with the evaluators AIC and AICc: the statistic of the world of
    ModelCluster.v, computed by the model of modelevaluators in Evaluators.v. *)
From Coq Require Import Reals.
From Verif Require Import Prelude Evaluators ModelCluster Prune.
Open Scope Z_scope.

Section Link.
Context {P B : Type}.
Variable w : world P B R.
Notation cluster := (cluster P B).

(** ModelCluster.value over the cluster, modelcluster.py:1267-1287. *)
Definition cluster_value (c : cluster) : list Z :=
  match c_model c with
  | [] => valuebl w (c_base c) (r_cluster c)
  | m => vadd w (valuebl w (c_base c) (r_cluster c)) (vsum w (r_cluster c) m)
  end.

(** What an evaluator reads of a cluster (aic.py:74-88, aicc.py:74-88): numbers of parameters
    of the peaks; value(), y_cluster and error_cluster point by point.  The numbers
    are the integers of ModelCluster.v, in any common unit. *)
Definition crit_data (c : cluster) : fitdata :=
  mkFit (model_npars w true (c_model c)) (model_npars w false (c_model c))
    (map (fun t => (IZR (fst (fst t)), IZR (snd (fst t)), IZR (snd t)))
       (combine (combine (cluster_value c) (y_cluster c)) (e_cluster c))).

(** ModelCluster.quality(kshift=k), modelcluster.py:1319-1345, with the class of the cluster's
    error_method: a new evaluator, whose statistic is kept. *)
Definition crit_stat (m : method) (c : cluster) (k : nat) : R :=
  match snd (evaluate (new_evaluator m false) (crit_data c) false (Z.of_nat k)) with Ok s => s | Err _ => 0%R end.

(** A world that judges models by AIC or AICc: quality, comparison of evaluators and
    growth_justified are those of the method; all else is arbitrary. *)
Definition crit_world (m : method) (qk : cluster -> nat -> R) : Prop :=
  (forall c k, qk c k = crit_stat m c k) /\
  (forall c, w_quality w c = crit_stat m c 0) /\
  (forall a b, Ok (w_qlt w a b) = ev_lt (mkEv m false (Some a) None) (mkEv m false (Some b) None)) /\
  (forall q c n, w_growth w q c n = snd (growth_justified (mkEv m false (Some q) None) (crit_data c) (Z.of_nat n))).
End Link.

(** Model of the evaluators (modelevaluators/base.py, aic.py, aicc.py; Evaluators.v models
    them in exact arithmetic) in binary64 floating-point arithmetic: every operation is
    followed by rounding (FloatWidth.rnd).  Simplifications: no overflow, [x**2] is the
    rounded square, error bars are not so small that their square is 0.  np.exp is a
    parameter. *)
From Coq Require Import Reals Permutation.
From Flocq Require Import Core.
From Verif Require Import Prelude Evaluators FloatWidth.
Open Scope R_scope.

(** np.sum: rounded additions in any order and grouping (numpy adds pairwise, with several
    accumulators). *)
Inductive summed : list R -> R -> Prop :=
| sum_nil : summed [] 0
| sum_one x : summed [x] x
| sum_cat l1 l2 a b : summed l1 a -> summed l2 b -> summed (l1 ++ l2) (rnd (a + b))
| sum_perm l l' s : Permutation l l' -> summed l s -> summed l' s.

(** One term of chi_squared, base.py:133-147: (expected - observed)**2 / error**2. *)
Definition term_f (p : R * R * R) : R := let '(e, o, s) := p in rnd (sq (rnd (e - o)) / sq s).
(** chi_squared: [c] is a possible result. *)
Definition chi_squared_f (ps : list (R * R * R)) (c : R) : Prop := summed (map term_f ps) c.

(** parpenalty, aic.py:108-126 and aicc.py:110-131; Python converts integers to the nearest
    double; the multiplication by 1.0 is exact. *)
Definition float_of_int (z : Z) : R := rnd (IZR z).
Definition penalty_f (m : method) (k n : Z) : R :=
  match m with
  | AICc => rnd (float_of_int (2 * k) + rnd (float_of_int (2 * k * (k + 1)) / float_of_int (n - k - 1)))
  | _ => float_of_int (2 * k)
  end.
(** The statistic of evaluate, aic.py:75-90 and aicc.py:75-90, for k parameters, n points and
    chi-square c. *)
Definition stat_f (m : method) (k n : Z) (c : R) : R := rnd (c + penalty_f m k (Z.max n (minpoints m k))).
(** growth_justified, aic.py:128-171, aicc.py:133-176. *)
Definition growth_f (m : method) (k k' n : Z) (c : R) : bool :=
  if (n <? minpoints m (k + k'))%Z then false else
  let n := Z.max n (minpoints m k) in
  Rltb (rnd (penalty_f m (k + k') n - penalty_f m k n)) c.
(** akaikeweights and akaikeprobs, aic.py:173-206; np.sum of the weights gives [t]. *)
Definition weight_f (exp_f : R -> R) (best s : R) : R := exp_f (rnd (- rnd (s - best) / 2)).
Definition weights_f (exp_f : R -> R) (stats : list R) : list R :=
  match stats with [] => [] | a :: r => map (weight_f exp_f (list_min a r)) stats end.
Definition probs_f (ws : list R) (t : R) : list R := map (fun w => rnd (w / t)) ws.

(** Model of modelevaluators/base.py, aic.py and aicc.py over the real numbers.
    Simplification: real arithmetic; no NaN or infinity (see ModelCluster.v for
    comparisons that make no such assumption). *)
From Coq Require Import Reals.
From Verif Require Import Prelude.

Inductive method := AIC | AICc | OtherMethod (n : nat).
Definition method_eqb (a b : method) : bool :=
  match a, b with
  | AIC, AIC | AICc, AICc => true
  | OtherMethod i, OtherMethod j => Nat.eqb i j
  | _, _ => false
  end.

(** ModelEvaluator.__init__, base.py:56-71. *)
Record evaluator := mkEv {
  emethod : method; higher_is_better : bool; stat : option R; chisq : option R }.
Definition new_evaluator (m : method) (hib : bool) := mkEv m hib None None.
(** AIC() and AICc(): aic.py:48-51, aicc.py:48-51 (lower is better). *)
Definition new_AIC := new_evaluator AIC false.
Definition new_AICc := new_evaluator AICc false.

Definition Rltb (a b : R) : bool := if Rlt_dec a b then true else false.
Definition Rleb (a b : R) : bool := if Rle_dec a b then true else false.
Definition Reqb (a b : R) : bool := if Req_EM_T a b then true else false.

(** The six rich comparisons, base.py:73-131: both assertions, then the test. *)
Definition compare_with (lo hi : R -> R -> bool) (self other : evaluator) : result bool :=
  if negb (method_eqb (emethod self) (emethod other)) then Err AssertionError else
  match stat self, stat other with
  | Some a, Some b => Ok (if higher_is_better self then hi a b else lo a b)
  | _, _ => Err AssertionError
  end.
Definition ev_lt := compare_with (fun a b => Rltb b a) (fun a b => Rltb a b).
Definition ev_le := compare_with (fun a b => Rleb b a) (fun a b => Rleb a b).
Definition ev_eq := compare_with Reqb Reqb.
Definition ev_ne := compare_with (fun a b => negb (Reqb a b)) (fun a b => negb (Reqb a b)).
Definition ev_gt := compare_with (fun a b => Rltb a b) (fun a b => Rltb b a).
Definition ev_ge := compare_with (fun a b => Rleb a b) (fun a b => Rleb b a).

(** What an evaluator reads from a ModelCluster: model.npars for both settings of
    count_fixed, size, and value(), y_cluster, error_cluster point by point. *)
Record fitdata := mkFit {
  npars_all : nat; npars_free : nat;
  points : list (R * R * R)   (* (value, observed, error) *) }.
Definition size (f : fitdata) : Z := Z.of_nat (length (points f)).

(** chi_squared, base.py:133-147. *)
Open Scope R_scope.
Definition chi_squared (ps : list (R * R * R)) : R :=
  fold_right Rplus 0 (map (fun p => let '(e, o, s) := p in (e - o) ^ 2 / s ^ 2) ps).

(** minpoints: aic.py:92-106, aicc.py:92-108. *)
Definition minpoints (m : method) (k : Z) : Z :=
  match m with AICc => (k + 2)%Z | _ => 1%Z end.
(** parpenalty: aic.py:108-126, aicc.py:110-131. *)
Definition parpenalty (m : method) (k n : Z) : R :=
  match m with
  | AICc => IZR (2 * k) + IZR (2 * k * (k + 1)) / IZR (n - k - 1)
  | _ => IZR (2 * k)
  end.

(** evaluate: aic.py:53-90, aicc.py:53-90.  A chisq already present is not recomputed.
    (SrMiseModelEvaluatorError is represented by GenericException.) *)
Definition evaluate (e : evaluator) (f : fitdata) (count_fixed : bool) (kshift : Z)
    : evaluator * result R :=
  let k := (Z.of_nat (if count_fixed then npars_all f else npars_free f) + kshift)%Z in
  if (k <? 0)%Z then (e, Err GenericException) else
  let n := if (size f <? minpoints (emethod e) k)%Z then minpoints (emethod e) k else size f in
  let c := match chisq e with None => chi_squared (points f) | Some c => c end in
  let s := c + parpenalty (emethod e) k n in
  (mkEv (emethod e) (higher_is_better e) (Some s) (Some c), Ok s).

(** growth_justified: aic.py:128-171, aicc.py:133-176. *)
Definition growth_justified (e : evaluator) (f : fitdata) (k_prime : Z) : evaluator * bool :=
  let c := match chisq e with None => chi_squared (points f) | Some c => c end in
  let e' := mkEv (emethod e) (higher_is_better e) (stat e) (Some c) in
  let k_actual := Z.of_nat (npars_free f) in
  let k_test := (k_actual + k_prime)%Z in
  let n := size f in
  if (n <? minpoints (emethod e) k_test)%Z then (e', false) else
  let n := if (n <? minpoints (emethod e) k_actual)%Z then minpoints (emethod e) k_actual else n in
  (e', Rltb (parpenalty (emethod e) k_test n - parpenalty (emethod e) k_actual n) c).

(** akaikeweights / akaikeprobs: aic.py:173-206, aicc.py:178-211, on the list of
    statistics; min of an empty sequence is a ValueError. *)
Fixpoint list_min (a : R) (l : list R) : R :=
  match l with [] => a | b :: r => list_min (Rmin a b) r end.
Definition akaikeweights (stats : list R) : result (list R) :=
  match stats with
  | [] => Err ValueError
  | a :: r => let m := list_min a r in Ok (map (fun s => exp (- (s - m) / 2)) stats)
  end.
Definition Rsum (l : list R) : R := fold_right Rplus 0 l.
Definition akaikeprobs (stats : list R) : result (list R) :=
  do w <- akaikeweights stats; Ok (map (fun x => x / Rsum w) w).

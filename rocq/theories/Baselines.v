(** Model of baselines/polynomial.py, baselines/nanospherical.py and the parameter
    bookkeeping of baselines/arbitrary.py.  Exact real arithmetic. *)
From Coq Require Import Reals.
From Verif Require Import Prelude PeakFuncs.
Open Scope R_scope.

(** ** Polynomial *)
(** __init__: polynomial.py:43-49: negative degrees become -1. *)
Definition poly_degree (degree : Z) : Z := if (degree <? 0)%Z then (-1)%Z else degree.
(** parameterdict, polynomial.py:50-54: for d in range(degree+1): {"a_d": degree - d};
    [npars] is its length (basefunction.py:114). *)
Definition poly_parameterdict (degree : Z) : list (nat * nat) :=
  let n := Z.to_nat (poly_degree degree + 1) in
  map (fun d => (d, Z.to_nat (poly_degree degree - Z.of_nat d))) (seq 0 n).
Definition poly_npars (degree : Z) : nat := length (poly_parameterdict degree).

(** numpy.polyval: Horner's scheme. *)
Definition polyval (pars : list R) (r : R) : R := fold_left (fun y p => y * r + p) pars 0.
(** _valueraw: polynomial.py:202-226. *)
Definition poly_value (degree : Z) (pars : list R) (r : R) : result R :=
  if negb (Nat.eqb (length pars) (poly_npars degree)) then Err ValueError else Ok (polyval pars r).
(** _jacobianraw: polynomial.py:127-164 (the loop at 160-163 uses np.power(r, idx)). *)
Definition poly_jacobian (degree : Z) (pars : list R) (r : R) (free : list bool) : result (list (option R)) :=
  if negb (Nat.eqb (length pars) (poly_npars degree)) then Err ValueError else
  if negb (Nat.eqb (length free) (poly_npars degree)) then Err ValueError else
  if Nat.eqb (length (filter negb free)) (poly_npars degree) then Ok (map (fun _ => None) (seq 0 (poly_npars degree))) else
  Ok (map (fun idx => if nth idx free false then Some (r ^ idx) else None) (seq 0 (poly_npars degree))).

(** ** NanoSpherical: pars = [scale, radius] *)
(** _valueraw2: nanospherical.py:270-289. *)
Definition nano_value2 (s0 R0 r : R) : R :=
  let s := Rabs s0 in let R1 := Rabs R0 in let rdivR := r / R1 in
  - s * r * (1 - 3 / 4 * rdivR + 1 / 16 * rdivR ^ 3).
(** _valueraw on a scalar: nanospherical.py:259-263. *)
Definition nano_value (s0 R0 r : R) : R :=
  if Rle_dec r 0 then 0 else if Rle_dec (2 * R0) r then 0 else nano_value2 s0 R0 r.
(** numpy searchsorted on an array of increasing r: number of leading elements <= v
    (side='right') or < v (side='left'). *)
Fixpoint count_while (f : R -> bool) (l : list R) : nat :=
  match l with [] => 0%nat | a :: t => if f a then S (count_while f t) else 0%nat end.
(** _getdomain: nanospherical.py:291-308. *)
Definition nano_domain (R0 : R) (r : list R) : nat * nat :=
  (count_while (fun a => if Rle_dec a 0 then true else false) r,
   count_while (fun a => if Rlt_dec a (2 * R0) then true else false) r).
(** out = zeros(len r); out[lo:hi] = f(r[lo:hi]). *)
Definition fill_slice (lo hi : nat) (f : R -> R) (r : list R) : list R :=
  map (fun ia => let '(i, a) := ia in if (Nat.leb lo i && Nat.ltb i hi)%bool then f a else 0)
      (combine (seq 0 (length r)) r).
(** _valueraw on an array: nanospherical.py:264-268. *)
Definition nano_value_array (s0 R0 : R) (r : list R) : list R :=
  let '(lo, hi) := nano_domain R0 r in fill_slice lo hi (nano_value2 s0 R0) r.

Definition sign (x : R) : R := if Rlt_dec 0 x then 1 else if Rlt_dec x 0 then -1 else 0.
(** _jacobianrawscale: nanospherical.py:138-162. *)
Definition nano_jac_scale (s0 R0 r : R) : R :=
  let rdivR := r / Rabs R0 in - sign R0 * r * (1 - 3 / 4 * rdivR + 1 / 16 * rdivR ^ 3).
(** _jacobianrawradius: nanospherical.py:164-187. *)
Definition nano_jac_radius (s0 R0 r : R) : R :=
  let s := Rabs s0 in let R1 := Rabs R0 in
  sign R0 * s * (3 * r ^ 2 * (r ^ 2 - 4 * R1 ^ 2)) / (16 * R1 ^ 4).
(** _jacobianraw on a scalar: nanospherical.py:117-127. *)
Definition nano_jacobian (s0 R0 r : R) (free : bool * bool) : list (option R) :=
  let '(f0, f1) := free in
  let outside := if Rle_dec r 0 then true else if Rle_dec (2 * R0) r then true else false in
  [ if f0 then Some (if outside then 0 else nano_jac_scale s0 R0 r) else None;
    if f1 then Some (if outside then 0 else nano_jac_radius s0 R0 r) else None ].
(** _jacobianraw on an array: nanospherical.py:128-135. *)
Definition nano_jacobian_array (s0 R0 : R) (r : list R) (free : bool * bool) : list (option (list R)) :=
  let '(f0, f1) := free in
  let '(lo, hi) := nano_domain R0 r in
  [ if f0 then Some (fill_slice lo hi (nano_jac_scale s0 R0) r) else None;
    if f1 then Some (fill_slice lo hi (nano_jac_radius s0 R0) r) else None ].
(** _transform_parametersraw: nanospherical.py:189-224. *)
Definition nano_normal (s0 R0 : R) : R * R := (Rabs s0, Rabs R0).

(** ** Arbitrary *)
(** __init__: arbitrary.py:59-73: ValueError for negative npars, then
    [for d in range(testnpars + 1)]. *)
Definition arbitrary_parameterdict (npars : Z) : result (list (nat * nat)) :=
  if (npars <? 0)%Z then Err ValueError
  else Ok (map (fun d => (d, d)) (seq 0 (Z.to_nat (npars + 1)))).
Definition arbitrary_npars (npars : Z) : result nat :=
  do d <- arbitrary_parameterdict npars; Ok (length d).
(** _jacobianraw: arbitrary.py:139-187, up to the call of the user's function [jacobianf]:
    [(pars is True).sum()] is evaluated only when there is no such function. *)
Definition arbitrary_jacobian (n : nat) (jacobianf : option (list R -> list bool -> result (list (option R))))
    (pars : list R) (free : list bool) : result (list (option R)) :=
  do nfree <- match jacobianf with
              | None => do k <- py_sum (PyBool false); Ok (Some k)
              | Some _ => Ok None
              end;
  match nfree with
  | Some (S _) => Err NotImplementedErr
  | _ =>
    if negb (Nat.eqb (length pars) n) then Err ValueError else
    if negb (Nat.eqb (length free) n) then Err ValueError else
    match nfree, jacobianf with
    | Some _, _ => Ok (map (fun _ => None) pars)
    | None, Some f => f pars free
    | None, None => Err TypeError
    end
  end.

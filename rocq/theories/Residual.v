(** Model of what ModelParts.fit hands to the optimiser: residual, residual_jacobian
    (modelparts.py:281-345), the value and Jacobian of a part restricted to a slice
    (basefunction.py:213-245, 334-368), and the scaling of the covariance matrix
    (modelparts.py:215-228).

    Numbers are reals.  Parts are values here: which objects they are, and how free
    parameters get into them, is Parts.v (C12); [put] below is pack_freepars for a vector
    with at least as many values as there are free parameters. *)
From Coq Require Import Reals.
From Verif Require Import Prelude Parts PeakFuncs Baselines.
Open Scope R_scope.

(** A BaseFunction subclass: value and Jacobian at one point.  The classes work on arrays
    element by element (C31_scalar_array_agree for the one that slices). *)
Record func := mkFunc {
  fn_npars : nat;
  fn_value : list R -> R -> R;
  fn_jac : list R -> list bool -> R -> result (list (option R)) }.
Record part := mkPart { p_fn : func; p_pars : list R; p_free : list bool }.

(** A slice with 0 <= start; None is slice(None). *)
Definition rng := option (nat * nat).
Definition cut {A} (g : rng) (l : list A) : list A :=
  match g with None => l | Some (a, b) => firstn (b - a) (skipn a l) end.
(** [output = r * 0.0; output[rng] = v], basefunction.py:364-365, 241-242 *)
Fixpoint put_at (n a : nat) (v : list R) : list R :=
  match n with
  | O => []
  | S n' => match a with
            | S a' => 0 :: put_at n' a' v
            | O => match v with [] => 0 :: put_at n' O [] | x :: v' => x :: put_at n' O v' end
            end
  end.
Definition embed (g : rng) (n : nat) (v : list R) : list R := match g with None => v | Some (a, _) => put_at n a v end.

(** ModelPart.value, modelparts.py:632-648 and basefunction.py:359-368 *)
Definition part_value (p : part) (r : list R) (g : rng) : list R := embed g (length r) (map (fn_value (p_fn p) (p_pars p)) (cut g r)).
(** ModelParts.value, modelparts.py:363-366 *)
Fixpoint add_lists (a b : list R) : list R := match a, b with x :: a', y :: b' => x + y :: add_lists a' b' | _, _ => [] end.
Definition value (ms : list part) (r : list R) (g : rng) : list R :=
  fold_left (fun t p => add_lists t (part_value p r g)) ms (map (fun x => x * 0) r).

(** pack_freepars, modelparts.py:262-279; update, 623-630 *)
Definition nfree_part (p : part) : nat := nfree (p_free p).
Definition put_part (p : part) (x : list R) : part := mkPart (p_fn p) (mask_put (p_pars p) (p_free p) (firstn (nfree_part p) x)) (p_free p).
Fixpoint put (ms : list part) (x : list R) : list part :=
  match ms with [] => [] | p :: r => put_part p x :: put r (skipn (nfree_part p) x) end.
Definition total_free (ms : list part) : nat := list_sum (map nfree_part ms).

(** residual, 301-308 *)
Fixpoint div_diff (y t e : list R) : list R :=
  match y, t, e with a :: y', b :: t', c :: e' => (a - b) / c :: div_diff y' t' e' | _, _, _ => [] end.
Definition residual (ms : list part) (x r y e : list R) (g : rng) : list R :=
  div_diff (cut g y) (cut g (value (put ms x) r g)) (cut g e).

(** ModelPart.jacobian and BaseFunction.jacobian, 232-245: one row per parameter, None for
    those that are not free; which rows there are is read off the first point (the range
    is not empty). *)
Fixpoint collect {A} (l : list (result A)) : result (list A) :=
  match l with [] => Ok [] | x :: r => do v <- x; do vs <- collect r; Ok (v :: vs) end.
Definition entry (i : nat) (col : list (option R)) : R := match nth_error col i with Some (Some v) => v | _ => 0 end.
Definition rows (n : nat) (cols : list (list (option R))) : list (option (list R)) :=
  map (fun i => match nth_error (hd [] cols) i with Some (Some _) => Some (map (entry i) cols) | _ => None end) (seq 0 n).
Definition part_jac (p : part) (r : list R) (g : rng) : result (list (option (list R))) :=
  do cols <- collect (map (fn_jac (p_fn p) (p_pars p) (p_free p)) (cut g r));
  Ok (map (option_map (embed g (length r))) (rows (fn_npars (p_fn p)) cols)).
(** residual_jacobian, 328-345 *)
Fixpoint all_jac (ms : list part) (r : list R) (g : rng) : result (list (option (list R))) :=
  match ms with [] => Ok [] | p :: rest => do a <- part_jac p r g; do b <- all_jac rest r g; Ok (a ++ b) end.
Fixpoint present {A} (l : list (option A)) : list A := match l with [] => [] | Some a :: r => a :: present r | None :: r => present r end.
Fixpoint div_lists (a b : list R) : list R := match a, b with x :: a', y :: b' => x / y :: div_lists a' b' | _, _ => [] end.
Definition residual_jacobian (ms : list part) (x r e : list R) (g : rng) : result (list (list R)) :=
  match x with
  | [] => Err ValueError
  | _ =>
    do t <- all_jac (put ms x) r g;
    match present t with
    | [] => Err IndexError                 (* jac[:, range] on an array without rows *)
    | js => Ok (map (fun row => div_lists (cut g (map Ropp row)) (cut g e)) js)
    end
  end.

(** fit, 215-228: the covariance of the free parameters from the optimiser's matrix
    [pcov] and the residual [fvec] it ended with. *)
Definition sum_sq (v : list R) : R := fold_right (fun a s => a ^ 2 + s) 0 v.
Definition fit_covariance (pcov : list (list R)) (fvec r x : list R) : list (list R) :=
  map (map (fun c => c * sum_sq fvec / INR (length r - length x))) pcov.

(** *** The classes *)
Definition or0 (o : option R) : R := match o with Some v => v | None => 0 end.
(** GaussianOverR (NaN and infinities read as 0: excluded by the hypotheses) *)
Definition pars3_of (l : list R) : pars3 := P3 (nth 0 l 0) (nth 1 l 0) (nth 2 l 0).
Definition free3_of (l : list bool) : bool * bool * bool := (nth 0 l false, nth 1 l false, nth 2 l false).
Definition gor_func (W : R) : func :=
  mkFunc 3 (fun l r => or0 (gor_value W (pars3_of l) r))
    (fun l f r => Ok (match gor_jacobian W (pars3_of l) r (free3_of f) with Some c => c | None => map (fun b : bool => if b then Some 0 else None) [nth 0 f false; nth 1 f false; nth 2 f false] end)).
(** Polynomial *)
Definition poly_func (d : Z) : func := mkFunc (poly_npars d) polyval (fun l f r => poly_jacobian d l r f).
(** NanoSpherical *)
Definition nano_func : func :=
  mkFunc 2 (fun l r => nano_value (nth 0 l 0) (nth 1 l 0) r) (fun l f r => Ok (nano_jacobian (nth 0 l 0) (nth 1 l 0) r (nth 0 f false, nth 1 f false))).
(** FromSequence, Gaussian after its AttributeError, ... have no free parameters or no
    Jacobian; [no_jac] is a function whose _jacobianraw raises. *)
Definition no_jac (n : nat) (v : list R -> R -> R) (e : exn) : func := mkFunc n v (fun _ _ _ => Err e).
(** fit, 202-204 and 215-220, for one peak: the parameters are brought to their normal form
    after the optimiser has returned; the matrix made from the optimiser's output is stored
    as it is, for the new parameters. *)
Definition fit_cleanup (W : R) (p : pars3) (cov : nat -> nat -> R) : result ((R * xR * R) * (nat -> nat -> R)) :=
  do t <- transform W Internal Internal p; Ok (t, cov).

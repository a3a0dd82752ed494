(** Shared vocabulary: Python results as values, and list helpers. *)
From Coq Require Export List Arith ZArith Lia Bool.
Export ListNotations.

(** Python exception classes raised by the modelled code. *)
Inductive exn :=
| ValueError | IndexError | KeyError | TypeError | AttributeError
| StopIteration | GenericException | AssertionError | NotImplementedErr
| FitError          (* SrMiseFitError *)
| TransformError    (* SrMiseTransformationError *)
| EstimationError   (* SrMiseEstimationError *)
| UndefinedCov      (* SrMiseUndefinedCovarianceError *)
| ScalingError      (* SrMiseScalingError *)
| DataFormatError   (* SrMiseDataFormatError *)
| FileError         (* SrMiseFileError *)
| QmaxError         (* SrMiseQmaxError *)
| UnboundLocalError.

(** Outcome of a Python call: a value or a raised exception. *)
Inductive result (A : Type) := Ok (a : A) | Err (e : exn).
Arguments Ok {A} a.
Arguments Err {A} e.

Definition bind {A B} (m : result A) (f : A -> result B) : result B :=
  match m with Ok a => f a | Err e => Err e end.
Notation "'do' x <- m ; f" := (bind m (fun x => f))
  (at level 200, x binder, m at level 100, f at level 200).

(** Python sequence indexing [l[i]] with wrap-around of negative indices and
    IndexError outside [-len, len). *)
Definition pyget {A} (l : list A) (i : Z) : result A :=
  let n := Z.of_nat (length l) in
  let j := if (i <? 0)%Z then (i + n)%Z else i in
  if ((j <? 0) || (n <=? j))%Z then Err IndexError
  else match nth_error l (Z.to_nat j) with Some a => Ok a | None => Err IndexError end.

(** [searchsorted_left l v]: numpy's [l.searchsorted(v)] (side='left') on a
    sorted list: the number of leading elements [< v]. *)
Fixpoint searchsorted_left (l : list Z) (v : Z) : nat :=
  match l with
  | [] => 0
  | a :: r => if (a <? v)%Z then S (searchsorted_left r v) else 0
  end.

(** In-place element assignment [l[i] = a] (no-op out of range; callers guard). *)
Fixpoint upd {A} (l : list A) (i : nat) (a : A) : list A :=
  match l, i with
  | [], _ => []
  | _ :: r, O => a :: r
  | b :: r, S j => b :: upd r j a
  end.

(** [np.insert(l, i, a, 0)] for 0 <= i <= len. *)
Definition insert_at {A} (l : list A) (i : nat) (a : A) : list A :=
  firstn i l ++ a :: skipn i l.

(** [np.delete(l, idxs, 0)]: drop every position listed in [idxs]. *)
Fixpoint delete_from {A} (k : nat) (l : list A) (idxs : list nat) : list A :=
  match l with
  | [] => []
  | a :: r => if existsb (Nat.eqb k) idxs then delete_from (S k) r idxs
              else a :: delete_from (S k) r idxs
  end.
Definition np_delete {A} (l : list A) (idxs : list nat) : list A := delete_from 0 l idxs.

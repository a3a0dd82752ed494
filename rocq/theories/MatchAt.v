(** Peaks.match_at (peaks/base.py:152-203), over the reals.

    [P] is the content of a peak part, [value p x] its curve, and
    [scale_at p x s] the outcome of Peak.scale_at (base.py:239-271): [Ok (Some p')] =
    True with new parameters, [Ok None] = False with the peak untouched, [Err] = an
    exception.  Parts and copies are compared by content, so that
    [self[:] = orig[:]] restores the list. *)
From Coq Require Import Reals Lra.
From Verif Require Import Prelude.
Open Scope R_scope.

Section MatchAt.
Context {P : Type}.
Variable value : P -> R -> R.
Variable scale_at : P -> R -> R -> result (option P).

(** ModelParts.value: modelparts.py:347-366, at one point. *)
Definition sum_at (ps : list P) (x : R) : R := fold_left (fun t p => t + value p x) ps 0.

(** First attempt: base.py:186-193.  Result: the mutated list, the list [scaled], and
    fixed_height. *)
Fixpoint first_attempt (ps : list P) (x s : R) : result (list P * list bool * R) :=
  match ps with
  | [] => Ok ([], [], 0)
  | p :: rest =>
      do o <- scale_at p x s;
      do t <- first_attempt rest x s;
      let '(ps', sc, fh) := t in
      match o with
      | Some p' => Ok (p' :: ps', true :: sc, fh)
      | None => Ok (p :: ps', false :: sc, value p x + fh)
      end
  end.

(** The loop of the second attempt, base.py:200-204: [for peak, s in (self, scaled)]
    iterates over the two-element tuple, not over pairs.  Unpacking a list of length
    other than 2 raises ValueError.  For two peaks the first turn has peak = self[0] and
    s = self[1] (a part, which is true), the second has peak = scaled[0] and
    s = scaled[1], and a bool has no method scale_at. *)
Definition second_attempt (orig : list P) (scaled : list bool) (x s : R) : result (list P * bool) :=
  match orig, scaled with
  | [a; b], [_; s2] =>
      do o <- scale_at a x s;
      if s2 then Err AttributeError
      else match o with Some a' => Ok ([a'; b], true) | None => Ok ([a; b], false) end
  | _, _ => Err ValueError
  end.

Definition all_true (l : list bool) : bool := forallb (fun b => b) l.
Definition any_true (l : list bool) : bool := existsb (fun b => b) l.

(** base.py:168-208. *)
Definition match_at (ps : list P) (x y : R) : list P * bool :=
  let height := sum_at ps x in
  if Req_EM_T height 0 then (ps, false) else
  let body :=
    do t <- first_attempt ps x (y / height);
    let '(ps1, scaled, fixed_height) := t in
    if negb (all_true scaled) then
      if Rlt_dec fixed_height y then
        if Rlt_dec fixed_height height then
          second_attempt ps scaled x ((y - fixed_height) / (height - fixed_height))
        else Ok (ps1, any_true scaled)
      else Ok (ps1, any_true scaled)
    else Ok (ps1, any_true scaled) in
  match body with
  | Ok out => out
  | Err _ => (ps, false)
  end.

End MatchAt.

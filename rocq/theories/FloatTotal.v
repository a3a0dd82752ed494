(** Model of ModelParts.value (modelparts.py:347-365) at one point in binary64 floating-point
    arithmetic: the values of the parts are added one after the other, starting from r * 0.0.
    Simplification: no overflow. *)
From Coq Require Import Reals.
From Flocq Require Import Core.
From Verif Require Import Prelude FloatWidth.
Open Scope R_scope.

(** [total = r * 0.0; for p in self: total += p.value(r, range)], 362-365; [vs] are the
    values of the parts at r. *)
Definition total_f (r : R) (vs : list R) : R := fold_left (fun t v => rnd (t + v)) vs (rnd (r * 0)).

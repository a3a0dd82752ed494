(** How ModelCluster.fit calls ModelParts.fit: the optimiser of the world of
    ModelCluster.v, built from the model of ModelParts.fit of Parts.v.  A peak, and a
    baseline, is what can be observed of a ModelPart ([Parts.content]). *)
From Verif Require Import Prelude Parts ModelCluster.
Open Scope nat_scope.

Section Link.
Variables V X W : Type.
Variable isnan : V -> bool.
Variable fn : nat -> func V X W.
Notation cont := (content V).
Notation cluster := (cluster cont cont).

(** What ModelPart.__init__ demands (modelparts.py:527-541): as many parameters and as many
    flags as the owner has.  With [strict], parts that hold a NaN parameter are left
    out as well (the constructor lets them pass). *)
Definition has_nan (x : cont) : bool := let '(_, ps, _, _, _) := x in existsb isnan ps.
Definition admissible (strict : bool) (x : cont) : bool :=
  let '(ow, ps, fl, _, _) := x in
  (length ps =? f_npars (fn ow)) && (length fl =? f_npars (fn ow)) && negb (strict && has_nan x).

(** The part objects a cluster's model and baseline consist of, each with its own arrays
    (modelparts.py:503-544). *)
Fixpoint build (h : heap V) (l : list cont) : heap V * result (list loc) :=
  match l with
  | [] => (h, Ok [])
  | (ow, ps, fl, rm, st) :: l' =>
    match construct V X W fn h ow ps (Some fl) rm st with
    | (h1, Err e) => (h1, Err e)
    | (h1, Ok q) =>
      match build h1 l' with
      | (h2, Err e) => (h2, Err e)
      | (h2, Ok qs) => (h2, Ok (q :: qs))
      end
    end
  end.

(** What is read back from the objects afterwards. *)
Definition look_all (h : heap V) (qs : list loc) : list cont :=
  flat_map (fun q => match look V h q with Some x => [x] | None => [] end) qs.

(** The call of fmodel.fit in ModelCluster.fit, modelcluster.py:1064-1085: the peaks of the
    model, followed by the baseline if it is fitted too; without covariance;
    ModelParts.fit compares with the length of all of r_data (modelparts.py:97).  [l1] and
    [l2] stand for anything scipy's leastsq may do, with and without the Jacobian.
    Simplification: a list with a part that cannot exist is answered with SrMiseFitError. *)
Definition parts_engine (strict : bool) (l1 l2 : list cont -> cluster -> nat -> lsq V)
    (m : list cont) (b : option cont) (c : cluster) (ntrials : nat)
    : (list cont * option cont) * result unit :=
  let all := m ++ match b with Some x => [x] | None => [] end in
  if negb (forallb (admissible strict) all) then ((m, b), Err FitError) else
  match build (empty_heap V) all with
  | (_, Err e) => ((m, b), Err e)
  | (h, Ok qs) =>
    let (h', out) := Parts.fit V X W isnan fn h qs (length (adat (c_r c))) false (l1 all c ntrials) (l2 all c ntrials) in
    let got := look_all h' qs in
    ((firstn (length m) got, match b with Some _ => nth_error got (length m) | None => None end), out)
  end.

(** A world whose peaks are ModelParts and whose optimiser is ModelParts.fit; everything
    else (data, positions, qualities, estimation) is arbitrary. *)
Definition parts_world {Q} (strict : bool) (l1 l2 : list cont -> cluster -> nat -> lsq V) (w : world cont cont Q) : Prop :=
  (forall m b c n, w_engine w m b c n = parts_engine strict l1 l2 m b c n) /\
  (forall ow ps fl rm st, w_removable w (ow, ps, fl, rm, st) = rm) /\
  (forall ow ps fl rm st, w_has_nan w (ow, ps, fl, rm, st) = existsb isnan ps).
End Link.

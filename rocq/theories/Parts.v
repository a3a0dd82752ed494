(** Model of modelparts.py (ModelPart, ModelParts) and of the owner checks and
    range handling of basefunction.py.

    Objects and numpy arrays live in a heap, so that aliasing is visible: a part
    refers to its parameter array and to its flag array by location.  The number
    type V, the abscissa type X and the ordinate type W are parameters, so the
    theorems hold for floats as well as for reals; NaN is any predicate on V.
    A BaseFunction instance is an identifier (Python identity) with an entry in
    a table [fn]. *)
From Verif Require Import Prelude.

Section Parts.
Variables V X W : Type.
Variable isnan : V -> bool.
Variable wzero : W.
Variable wadd : W -> W -> W.

(** The parts of a BaseFunction used here (basefunction.py:74-146, 289-368):
    its parameter count, [_valueraw] on a grid and
    [transform_parameters(pars, "internal", "internal")]. *)
Record func := mkFunc {
  f_npars : nat;
  f_value : list V -> list X -> list W;
  f_norm : list V -> result (list V) }.
Variable fn : nat -> func.

Definition loc := nat.

(** modelparts.py:503-544, the instance attributes. *)
Record part := mkPart {
  owner : nat; pars : loc; free : loc; removable : bool; static_owner : bool }.

Record heap := mkHeap {
  vals : loc -> list V;        (* parameter arrays *)
  flags : loc -> list bool;    (* boolean arrays *)
  objs : loc -> option part;   (* ModelPart objects *)
  fresh : loc }.

Definition set {A} (f : loc -> A) (l : loc) (a : A) : loc -> A :=
  fun x => if Nat.eqb x l then a else f x.

Definition set_vals h l a := mkHeap (set (vals h) l a) (flags h) (objs h) (fresh h).
Definition set_flags h l a := mkHeap (vals h) (set (flags h) l a) (objs h) (fresh h).
Definition set_obj h l a := mkHeap (vals h) (flags h) (set (objs h) l (Some a)) (fresh h).

(** What can be observed of a part through its attributes. *)
Definition content := (nat * list V * list bool * bool * bool)%type.
Definition look (h : heap) (p : loc) : option content :=
  match objs h p with
  | None => None
  | Some o => Some (owner o, vals h (pars o), flags h (free o), removable o, static_owner o)
  end.

Definition nfree (fr : list bool) : nat := length (filter (fun b => b) fr).

(** ModelPart.__init__, modelparts.py:503-544: both length checks; [np.array(...)]
    copies both sequences into new arrays; [free=None] means all True. *)
Definition construct (h : heap) (ow : nat) (ps : list V) (fr : option (list bool))
    (rm st : bool) : heap * result loc :=
  if negb (length ps =? f_npars (fn ow)) then (h, Err ValueError) else
  let fr' := match fr with None => repeat true (length ps) | Some l => l end in
  if negb (length fr' =? f_npars (fn ow)) then (h, Err ValueError) else
  let a := fresh h in
  (mkHeap (set (vals h) a ps) (set (flags h) (S a) fr')
          (set (objs h) (S (S a)) (Some (mkPart ow a (S a) rm st))) (S (S (S a))),
   Ok (S (S a))).

(** ModelPart.copy, modelparts.py:650-667. *)
Definition copy_part (h : heap) (p : loc) : heap * result loc :=
  match objs h p with
  | None => (h, Err AttributeError)
  | Some o => construct h (owner o) (vals h (pars o)) (Some (flags h (free o)))
                (removable o) (static_owner o)
  end.

(** ModelPart.changeowner, modelparts.py:546-568 (SrMiseStaticOwnerError is
    represented by [GenericException]). *)
Definition changeowner (h : heap) (p : loc) (ow : nat) : heap * result unit :=
  match objs h p with
  | None => (h, Err AttributeError)
  | Some o =>
    if static_owner o && negb (owner o =? ow) then (h, Err GenericException) else
    if negb (f_npars (fn (owner o)) =? f_npars (fn ow)) then (h, Err GenericException) else
    (set_obj h p (mkPart ow (pars o) (free o) (removable o) (static_owner o)), Ok tt)
  end.

(** numpy boolean masking [a[mask]]. *)
Fixpoint mask_get {A} (a : list A) (m : list bool) : list A :=
  match a, m with
  | x :: a', b :: m' => if b then x :: mask_get a' m' else mask_get a' m'
  | _, _ => []
  end.

(** numpy [a[mask] = vs] when there are exactly as many values as True entries. *)
Fixpoint mask_put {A} (a : list A) (m : list bool) (vs : list A) : list A :=
  match a, m with
  | x :: a', true :: m' =>
      match vs with
      | v :: vs' => v :: mask_put a' m' vs'
      | [] => x :: mask_put a' m' []
      end
  | x :: a', false :: m' => x :: mask_put a' m' vs
  | _, _ => a
  end.

(** numpy [a[mask] = vs]: the counts must agree, except that a single value is
    broadcast to every True position; otherwise ValueError. *)
Definition mask_assign {A} (a : list A) (m : list bool) (vs : list A) : result (list A) :=
  if length vs =? nfree m then Ok (mask_put a m vs)
  else match vs with
       | [v] => Ok (mask_put a m (repeat v (nfree m)))
       | _ => Err ValueError
       end.

(** ModelPart.compress, modelparts.py:570-578. *)
Definition compress (h : heap) (p : loc) : list V :=
  match objs h p with
  | None => []
  | Some o => mask_get (vals h (pars o)) (flags h (free o))
  end.

(** ModelPart.npars, modelparts.py:731-748. *)
Definition npars (h : heap) (count_fixed : bool) (p : loc) : nat :=
  match objs h p with
  | None => 0
  | Some o => if count_fixed then f_npars (fn (owner o)) else nfree (flags h (free o))
  end.

(** ModelPart.update, modelparts.py:609-630. *)
Definition update (h : heap) (p : loc) (fp : list V) : heap * result nat :=
  match objs h p with
  | None => (h, Err AttributeError)
  | Some o =>
    let k := npars h false p in
    match mask_assign (vals h (pars o)) (flags h (free o)) (firstn k fp) with
    | Err e => (h, Err e)
    | Ok a => (set_vals h (pars o) a, Ok k)
    end
  end.

(** ModelPart.setfree with an integer index, modelparts.py:705-725. *)
Definition setfree (h : heap) (p : loc) (i : Z) (b : bool) : heap * result unit :=
  match objs h p with
  | None => (h, Err AttributeError)
  | Some o =>
    let fr := flags h (free o) in
    match pyget fr i with
    | Err e => (h, Err e)
    | Ok _ => let j := if (i <? 0)%Z then (i + Z.of_nat (length fr))%Z else i in
              (set_flags h (free o) (upd fr (Z.to_nat j) b), Ok tt)
    end
  end.

(** Direct assignment to one stored parameter, [part.pars[i] = v]. *)
Definition poke (h : heap) (p : loc) (i : nat) (v : V) : heap * result unit :=
  match objs h p with
  | None => (h, Err AttributeError)
  | Some o => if i <? length (vals h (pars o))
              then (set_vals h (pars o) (upd (vals h (pars o)) i v), Ok tt)
              else (h, Err IndexError)
  end.

(** [p.pars = p.owner().transform_parameters(p.pars, "internal", "internal")],
    modelparts.py:205-207: rebinds the attribute to a new array. *)
Definition normalize (h : heap) (p : loc) : heap * result unit :=
  match objs h p with
  | None => (h, Err AttributeError)
  | Some o =>
    match f_norm (fn (owner o)) (vals h (pars o)) with
    | Err e => (h, Err e)
    | Ok a => let l := fresh h in
      (mkHeap (set (vals h) l a) (flags h)
         (set (objs h) p (Some (mkPart (owner o) l (free o) (removable o) (static_owner o))))
         (S l), Ok tt)
    end
  end.

(** ** ModelParts: a Python list of part references *)

(** ModelParts.npars, modelparts.py:237-254. *)
Definition m_npars (h : heap) (count_fixed : bool) (ms : list loc) : nat :=
  fold_left (fun n p => n + npars h count_fixed p) ms 0.

(** ModelParts.unpack_freepars, modelparts.py:368-372: np.concatenate of an
    empty sequence raises ValueError. *)
Definition unpack (h : heap) (ms : list loc) : result (list V) :=
  match ms with
  | [] => Err ValueError
  | _ => Ok (concat (map (compress h) ms))
  end.

(** ModelParts.pack_freepars, modelparts.py:256-273; the loop keeps the already
    updated parts when a later one raises. *)
Fixpoint pack_loop (h : heap) (ms : list loc) (fp : list V) : heap * result unit :=
  match ms with
  | [] => (h, Ok tt)
  | p :: ms' =>
    match update h p fp with
    | (h', Err e) => (h', Err e)
    | (h', Ok k) => pack_loop h' ms' (skipn k fp)
    end
  end.
Definition pack (h : heap) (ms : list loc) (fp : list V) : heap * result unit :=
  if existsb isnan fp then (h, Err ValueError) else pack_loop h ms fp.

(** ModelParts.copy, modelparts.py:412-423. *)
Fixpoint copy_parts (h : heap) (ms : list loc) : heap * result (list loc) :=
  match ms with
  | [] => (h, Ok [])
  | p :: ms' =>
    match copy_part h p with
    | (h1, Err e) => (h1, Err e)
    | (h1, Ok q) =>
      match copy_parts h1 ms' with
      | (h2, Err e) => (h2, Err e)
      | (h2, Ok qs) => (h2, Ok (q :: qs))
      end
    end
  end.

(** ModelPart.__eq__, modelparts.py:754-764 (static_owner is not compared); [veq]
    is numpy's elementwise ==, under which NaN differs from itself. *)
Variable veq : V -> V -> bool.
Fixpoint all_eq {A} (eqb : A -> A -> bool) (a b : list A) : bool :=
  match a, b with
  | x :: a', y :: b' => eqb x y && all_eq eqb a' b'
  | _, _ => true
  end.
Definition part_eq (h : heap) (p q : loc) : bool :=
  match objs h p, objs h q with
  | Some a, Some b =>
      (owner a =? owner b) && all_eq veq (vals h (pars a)) (vals h (pars b))
      && all_eq Bool.eqb (flags h (free a)) (flags h (free b))
      && Bool.eqb (removable a) (removable b)
  | _, _ => false
  end.

(** ** Values *)

(** Python [slice(start, stop)] on a sequence of length n: effective bounds. *)
Definition clip (n : nat) (o : option Z) (dflt : nat) : nat :=
  match o with
  | None => dflt
  | Some z => let j := if (z <? 0)%Z then (z + Z.of_nat n)%Z else z in
              Nat.min n (Z.to_nat j)
  end.
Definition slice_lo n (s : option Z * option Z) := clip n (fst s) 0.
Definition slice_hi n (s : option Z * option Z) := Nat.max (slice_lo n s) (clip n (snd s) n).

(** BaseFunction.value, basefunction.py:334-368, for a sequence r: the owner
    check, then zeros outside the range and [_valueraw] inside.
    Simplification: [r * 0.0] is written as zeros (finite grids). *)
Definition fvalue (h : heap) (self : nat) (p : loc) (r : list X)
    (rng : option (option Z * option Z)) : result (list W) :=
  match objs h p with
  | None => Err AttributeError
  | Some o =>
    if negb (self =? owner o) then Err ValueError else
    let n := length r in
    let s := match rng with None => (Some 0%Z, Some (Z.of_nat n)) | Some s => s end in
    let lo := slice_lo n s in let hi := slice_hi n s in
    let rpart := firstn (hi - lo) (skipn lo r) in
    let raw := f_value (fn self) (vals h (pars o)) rpart in
    Ok (repeat wzero lo ++ raw ++ repeat wzero (n - hi))
  end.

(** ModelPart.value, modelparts.py:632-648. *)
Definition pvalue h p r rng :=
  match objs h p with
  | None => Err AttributeError
  | Some o => fvalue h (owner o) p r rng
  end.

Definition vadd (a b : list W) : list W := map (fun ab => wadd (fst ab) (snd ab)) (combine a b).

(** ModelParts.value, modelparts.py:347-366: left-to-right accumulation. *)
Fixpoint value_loop h (ms : list loc) (r : list X) rng (acc : list W) : result (list W) :=
  match ms with
  | [] => Ok acc
  | p :: ms' => do v <- pvalue h p r rng; value_loop h ms' r rng (vadd acc v)
  end.
Definition mvalue h ms r rng := value_loop h ms r rng (repeat wzero (length r)).

(** ** Fitting *)

(** Any behaviour of scipy's leastsq: the vectors at which it evaluates the
    residual or its Jacobian, then an exception (from leastsq or from the
    evaluated functions) or an answer: solution, status flag and whether the
    curvature matrix is present (f[1] is None if singular). *)
Inductive lsq_out := LDone (x : list V) (ier : Z) (pcov : bool) | LRaise (e : exn).
Definition lsq := (list (list V) * lsq_out)%type.

(** Evaluating residual/residual_jacobian packs the vector into the model
    (modelparts.py:296, 336); an exception there surfaces from leastsq. *)
Fixpoint run_lsq (h : heap) (ms : list loc) (qs : list (list V)) (out : lsq_out)
    : heap * lsq_out :=
  match qs with
  | [] => (h, out)
  | q :: qs' =>
    match pack h ms q with
    | (h', Err e) => (h', LRaise e)
    | (h', Ok _) => run_lsq h' ms qs' out
    end
  end.

(** The clean-up loop, modelparts.py:205-207. *)
Fixpoint norm_loop (h : heap) (ms : list loc) : heap * result unit :=
  match ms with
  | [] => (h, Ok tt)
  | p :: ms' =>
    match normalize h p with
    | (h', Err e) => (h', Err e)
    | (h', Ok _) => norm_loop h' ms'
    end
  end.

(** modelparts.py:174-219, after leastsq returned: store, status check, clean-up,
    covariance ([None * number] is a TypeError).  setcovariance and the covariance
    transformation are modelled in Covariance.v. *)
Definition fit_finish (h : heap) (ms : list loc) (out : lsq_out) (want_cov : bool)
    : heap * result unit :=
  match out with
  | LRaise e => (h, Err e)
  | LDone x ier pcov =>
    match pack h ms x with
    | (h1, Err e) => (h1, Err e)
    | (h1, Ok _) =>
      if negb ((1 <=? ier) && (ier <=? 4))%Z then (h1, Err FitError) else
      match norm_loop h1 ms with
      | (h2, Err e) => (h2, Err e)
      | (h2, Ok _) => if want_cov && negb pcov then (h2, Err TypeError) else (h2, Ok tt)
      end
    end
  end.

(** ModelParts.fit, modelparts.py:60-220.  [t1] is the behaviour of the first
    leastsq call, [t2] that of the fallback without Jacobian, whose exceptions are
    not inside the try block.  Plotting is not modelled. *)
Definition fit (h : heap) (ms : list loc) (npoints : nat) (want_cov : bool) (t1 t2 : lsq)
    : heap * result unit :=
  match unpack h ms with
  | Err e => (h, Err e)
  | Ok fp =>
    if npoints <=? length fp then (h, Err FitError) else
    if length fp =? 0 then (h, Ok tt) else
    match run_lsq h ms (fst t1) (snd t1) with
    | (h1, LRaise NotImplementedErr) =>
        let (h2, o2) := run_lsq h1 ms (fst t2) (snd t2) in fit_finish h2 ms o2 want_cov
    | (h1, LRaise _) => (h1, Err FitError)
    | (h1, o1) => fit_finish h1 ms o1 want_cov
    end
  end.

(** ** Programs: any sequence of public operations on parts *)
Inductive op :=
| ONew (ow : nat) (ps : list V) (fr : option (list bool)) (rm st : bool)
| OCopy (p : loc)
| OUpdate (p : loc) (v : list V)
| OSetFree (p : loc) (i : Z) (b : bool)
| OChangeOwner (p : loc) (ow : nat)
| OPoke (p : loc) (i : nat) (v : V)
| ONormalize (p : loc).

Definition exec (h : heap) (o : op) : heap :=
  match o with
  | ONew ow ps fr rm st => fst (construct h ow ps fr rm st)
  | OCopy p => fst (copy_part h p)
  | OUpdate p v => fst (update h p v)
  | OSetFree p i b => fst (setfree h p i b)
  | OChangeOwner p ow => fst (changeowner h p ow)
  | OPoke p i v => fst (poke h p i v)
  | ONormalize p => fst (normalize h p)
  end.
Definition exec_all (h : heap) (os : list op) : heap := fold_left exec os h.

(** The part an operation writes to, if any. *)
Definition writes (o : op) : option loc :=
  match o with
  | ONew _ _ _ _ _ | OCopy _ => None
  | OUpdate p _ | OSetFree p _ _ | OChangeOwner p _ | OPoke p _ _ | ONormalize p => Some p
  end.

Definition empty_heap : heap := mkHeap (fun _ => []) (fun _ => []) (fun _ => None) 0.

End Parts.
Arguments mkFunc {V X W}.
Arguments f_npars {V X W}.
Arguments f_norm {V X W}.
Arguments f_value {V X W}.

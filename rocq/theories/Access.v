(** Model of access to the parameters of parts and to the parts of a model:
    ModelPart.__getitem__/getfree/setfree (modelparts.py:662-725), ModelParts.__getitem__
    (428-436), ModelParts.transform (438-456), ModelParts.covariance (374-411) and
    BaseFunction.pgradient (basefunction.py:370-398).

    Slices have no step.  Parts are values here; Parts.v has them as objects. *)
From Coq Require Import String.
From Verif Require Import Prelude Functions Parts.

(** What is written between brackets: a key or an index or a slice *)
Inductive pykeyidx := KName (s : string) | KIdx (i : Z) | KSlice (s : option Z * option Z).
(** An element or a sub-array *)
Inductive elem A := One (a : A) | Many (l : list A).
Arguments One {A} a. Arguments Many {A} l.

Definition py_slice {A} (l : list A) (s : option Z * option Z) : list A :=
  let lo := slice_lo (List.length l) s in let hi := slice_hi (List.length l) s in firstn (hi - lo) (skipn lo l).
(** array[i], array[a:b]; a string is no index *)
Definition np_get {A} (l : list A) (k : pykeyidx) : result (elem A) :=
  match k with
  | KIdx i => do a <- pyget l i; Ok (One a)
  | KSlice s => Ok (Many (py_slice l s))
  | KName _ => Err IndexError
  end.
(** array[i] = v, array[a:b] = v with one value *)
Fixpoint fill {A} (l : list A) (lo hi : nat) (v : A) : list A :=
  match l with
  | [] => []
  | a :: r => (if (lo =? 0) && (0 <? hi) then v else a) :: fill r (lo - 1) (hi - 1) v
  end%nat.
Definition np_set {A} (l : list A) (k : pykeyidx) (v : A) : result (list A) :=
  match k with
  | KIdx i => do a <- pyget l i; Ok (upd l (Z.to_nat (if (i <? 0)%Z then i + Z.of_nat (List.length l) else i)%Z) v)
  | KSlice s => Ok (fill l (slice_lo (List.length l) s) (slice_hi (List.length l) s) v)
  | KName _ => Err IndexError
  end.
Section Part.
Context {V : Type}.
(** parameterdict of the owner *)
Variable pdict : list (string * nat).
Definition dget (s : string) : option nat := match find (fun kv => String.eqb (fst kv) s) pdict with Some kv => Some (snd kv) | None => None end.
(** [key_or_idx in parameterdict], 676, 698, 721: names only (an integer or a slice is no key) *)
Definition redirect (k : pykeyidx) : pykeyidx := match k with KName s => match dget s with Some i => KIdx (Z.of_nat i) | None => k end | _ => k end.
Definition part_getitem (pars : list V) (k : pykeyidx) : result (elem V) := np_get pars (redirect k).
Definition part_getfree (free : list bool) (k : pykeyidx) : result (elem bool) := np_get free (redirect k).
Definition part_setfree (free : list bool) (k : pykeyidx) (v : bool) : result (list bool) := np_set free (redirect k) v.
End Part.

(** ModelParts.__getitem__, 428-436: an index gives the part, a pair or a slice gives a
    ModelParts (here Many); a tuple of another length is no index of a list. *)
Inductive listidx := LIdx (i : Z) | LSlice (s : option Z * option Z) | LTuple (l : list (option Z)).
Definition parts_getitem {A} (ms : list A) (k : listidx) : result (elem A) :=
  match k with
  | LTuple [a; b] => Ok (Many (py_slice ms (a, b)))
  | LTuple _ => Err TypeError
  | LSlice s => Ok (Many (py_slice ms s))
  | LIdx i => do a <- pyget ms i; Ok (One a)
  end.

Section Transform.
(** A part as its owner and parameters; [transform_parameters] of the owner *)
Context {F P : Type}.
Variable tpars : F -> P -> string -> string -> result P.
(** ModelParts.transform, 438-456: parts are changed one after the other; ValueError is
    logged and ignored, any other error ends it. *)
Fixpoint transform (ms : list (F * P)) (inf outf : string) : list (F * P) * result unit :=
  match ms with
  | [] => ([], Ok tt)
  | (f, p) :: r =>
    match tpars f p inf outf with
    | Ok q => let '(r', e) := transform r inf outf in ((f, q) :: r', e)
    | Err ValueError => let '(r', e) := transform r inf outf in ((f, p) :: r', e)
    | Err e => ((f, p) :: r, Err e)
    end
  end.
End Transform.

(** ModelParts.covariance, 374-411, and pgradient, basefunction.py:370-398: None, after the
    keywords f0, f1, ... are checked.  [key_int k] is int(k[1:]), None if it is no integer. *)
Definition parts_covariance {C} (n : nat) (key_int : string -> option Z) (kwds : list string) : result (option C) :=
  (fix go ks := match ks with
    | [] => Ok None
    | k :: r => match key_int k with None => Err ValueError | Some i => do _ <- pyget (repeat tt n) i; go r end
    end) kwds.
Definition pgradient {P C} (p : P) (fmt : string) : result (option C) := Ok None.

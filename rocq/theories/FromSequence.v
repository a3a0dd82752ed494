(** Model of FromSequence (baselines/fromsequence.py), apart from readxy (Serial.v), and of
    BaseFunction.value as it calls it (basefunction.py:334-368).

    Coordinates are reals.  The spline is whatever scipy's InterpolatedUnivariateSpline makes
    of the two sequences, or the exception it raises.  A Python list or array is an address in
    a heap; the constructor keeps the addresses in metadict, not the contents. *)
From Coq Require Import Reals String Ascii.
From Verif Require Import Prelude Serial.
Open Scope string_scope.
Open Scope list_scope.

(** An argument: a sequence object, a string, or something else (without length). *)
Inductive arg := ASeq (a : nat) | AText (s : string) | AOther.
Definition heap := nat -> list R.
Definition alloc (h : heap) (a : nat) (l : list R) : heap := fun b => if Nat.eqb b a then l else h b.

(** The object: spline, minx, maxx, and metadict["x"], metadict["y"]. *)
Record fseq := mkFseq { f_spline : R -> R; f_minx : R; f_maxx : R; f_x : nat; f_y : nat }.

Section FromSequence.
(** scipy.interpolate.InterpolatedUnivariateSpline *)
Variable spline : list R -> list R -> result (R -> R).
(** The files: what open(...).read() gives, or the exception *)
Variable files : string -> result string.
Variable float : string -> result R.

(** readxy, fromsequence.py:251-278: two new arrays at the addresses [fa], [S fa]. *)
Definition load_file (fa : nat) (h : heap) (name : arg) : heap * result (arg * arg) :=
  match name with
  | AText s =>
    match files s with
    | Err e => (h, Err e)
    | Ok t => match readxy float t with
              | Err e => (h, Err e)
              | Ok rows => (alloc (alloc h fa (map fst rows)) (S fa) (map snd rows), Ok (ASeq fa, ASeq (S fa)))
              end
    end
  | _ => (h, Err TypeError)
  end.

Definition haskey (k : string) (kwds : list (string * arg)) : bool := existsb (fun kv => String.eqb k (fst kv)) kwds.
Definition value_of (k : string) (kwds : list (string * arg)) : result arg :=
  match find (fun kv => String.eqb k (fst kv)) kwds with Some kv => Ok (snd kv) | None => Err KeyError end.

(** fromsequence.py:69-85: the four signatures. *)
Definition resolve (fa : nat) (h : heap) (args : list arg) (kwds : list (string * arg)) : heap * result (arg * arg) :=
  if ((List.length args =? 1) && (List.length kwds =? 0))%nat then
    match args with a :: _ => load_file fa h a | [] => (h, Err IndexError) end
  else if ((List.length args =? 0)%nat && (haskey "file" kwds && negb (haskey "x" kwds) && negb (haskey "y" kwds)))%bool then
    match value_of "file" kwds with Ok a => load_file fa h a | Err e => (h, Err e) end
  else if ((List.length args =? 2) && (List.length kwds =? 0))%nat then
    match args with a :: b :: _ => (h, Ok (a, b)) | _ => (h, Err IndexError) end
  else if ((List.length args =? 0)%nat && (haskey "x" kwds && haskey "y" kwds && negb (haskey "file" kwds)))%bool then
    match value_of "x" kwds, value_of "y" kwds with Ok a, Ok b => (h, Ok (a, b)) | _, _ => (h, Err KeyError) end
  else (h, Err TypeError).

(** len() *)
Definition alen (h : heap) (a : arg) : result nat :=
  match a with ASeq p => Ok (List.length (h p)) | AText s => Ok (String.length s) | AOther => Err TypeError end.

(** fromsequence.py:87-111.  The spline of a string raises TypeError or ValueError; here
    ValueError. *)
Definition construct (fa : nat) (h : heap) (args : list arg) (kwds : list (string * arg)) : heap * result fseq :=
  match resolve fa h args kwds with
  | (h', Err e) => (h', Err e)
  | (h', Ok (x, y)) =>
    (h', do n <- alen h' x; do m <- alen h' y;
         if negb (n =? m)%nat then Err ValueError else
         match x, y with
         | ASeq px, ASeq py =>
           do s <- spline (h' px) (h' py);
           do lo <- pyget (h' px) 0; do hi <- pyget (h' px) (-1);
           Ok (mkFseq s lo hi px py)
         | _, _ => Err ValueError
         end)
  end.

(** npars = len(parameterdict), basefunction.py:107: parameterdict is empty. *)
Definition fs_npars : nat := 0.
(** estimate_parameters, 115-133 *)
Definition fs_estimate (r y : list R) : list R := [].
(** _jacobianraw, 135-160 *)
Definition fs_jacobian (pars : list R) (free : list bool) : result (list (option (list R))) :=
  if negb (List.length pars =? fs_npars)%nat then Err ValueError else
  if negb (List.length free =? fs_npars)%nat then Err ValueError else Ok [].
(** _transform_parametersraw, 162-196 *)
Definition fs_transform (pars : list R) (fin fout : string) : result (list R) :=
  if negb (String.eqb fin "internal") then Err ValueError else
  if negb (String.eqb fout "internal") then Err ValueError else Ok pars.

(** _valueraw, 198-231, on an array or a number: what is logged (the range evaluated) and
    the result.  [empty_truth]: the truth value of an empty array, which depends on numpy. *)
Definition outside (f : fseq) (a b : R) : bool :=
  ((if Rlt_dec a (f_minx f) then true else false) || (if Rlt_dec (f_maxx f) b then true else false))%bool.
Variable empty_truth : result bool.
Definition fs_value (f : fseq) (pars : list R) (r : list R) : option (R * R) * result (list R) :=
  if negb (List.length pars =? fs_npars)%nat then (None, Err ValueError) else
  match pyget r 0, pyget r (-1) with
  | Ok a, Ok b => (if outside f a b then Some (a, b) else None, Ok (map (f_spline f) r))
  | _, _ => match empty_truth with
            | Ok _ => (None, Ok (map (f_spline f) r))      (* True would log the empty array *)
            | Err e => (None, Err e)
            end
  end.
Definition fs_value_at (f : fseq) (pars : list R) (r : R) : option (R * R) * result R :=
  if negb (List.length pars =? fs_npars)%nat then (None, Err ValueError) else
  (if outside f r r then Some (r, r) else None, Ok (f_spline f r)).

(** BaseFunction.value with a slice lo:hi of an array (basefunction.py:359-368): zeros outside. *)
Definition fs_slice_value (f : fseq) (r : list R) (lo hi : nat) : option (R * R) * result (list R) :=
  let part := firstn (hi - lo) (skipn lo r) in
  match fs_value f [] part with
  | (w, Err e) => (w, Err e)
  | (w, Ok v) => (w, Ok (repeat 0%R (Nat.min lo (List.length r)) ++ v ++ repeat 0%R (List.length r - (Nat.min lo (List.length r) + List.length v))))
  end.

(** xyrepr, 236-249, of metadict's x and y (basefunction.py:431-432): the lists as they are
    now. *)
Variable repr : R -> string.
Definition xyrepr (l : list R) : string := ("[" ++ join ", " (map repr l) ++ "]")%string.
Definition fs_meta (f : fseq) (h : heap) : list (string * string) := [("x", xyrepr (h (f_x f))); ("y", xyrepr (h (f_y f)))].
(** functionclass( **pdict ) in factory (basefunction.py:497) with what eval makes of the
    two texts: new lists. *)
Variable eval_list : string -> result (list R).
Definition reread (fa : nat) (h : heap) (meta : list (string * string)) : heap * result fseq :=
  match meta with
  | [(kx, tx); (ky, ty)] =>
    match eval_list tx, eval_list ty with
    | Ok x, Ok y => construct (S (S fa)) (alloc (alloc h fa x) (S fa) y) [] [(kx, ASeq fa); (ky, ASeq (S fa))]
    | _, _ => (h, Err DataFormatError)
    end
  | _ => (h, Err KeyError)
  end.
End FromSequence.

(** Model of BaseFunction.value and jacobian (basefunction.py:206-242, 337-368) for the four
    kinds of r a user may pass: a numpy array, a Python number, a numpy number, a list.

    X: the numbers of r, W: the numbers of the result.  [zero_of x] is x * 0.0, which is 0
    unless x is infinite or NaN.  [raw] and [jraw] are _valueraw and _jacobianraw of some
    function at some parameters; they may raise.  The check of the owner (354-356) is in
    Parts.v.  Assigning a result of another length than the slice raises ValueError (numpy;
    lengths 1 are broadcast, which is not represented). *)
From Verif Require Import Prelude.

Section Kinds.
Context {X W : Type}.
Variable zero_of : X -> W.
Inductive rkind := Arr (l : list X) | Num (x : X) | NpNum (x : X) | Lst (l : list X).
Inductive out := OArr (l : list W) | ONum (v : W).
Variable raw : rkind -> result out.
Variable jraw : rkind -> result (list (option out)).

(** A slice start:stop of a sequence of length n as positions lo <= hi <= n. *)
Definition bound (n : nat) (i : Z) : nat := Z.to_nat (Z.max 0 (Z.min (Z.of_nat n) (if (i <? 0)%Z then (i + Z.of_nat n)%Z else i))).
Definition slice_of (n : nat) (rng : option (option Z * option Z)) : nat * nat :=
  match rng with
  | None => (0, n)                                                   (* slice(0, len(r)) *)
  | Some (a, b) =>
    let lo := match a with None => 0 | Some i => bound n i end in
    let hi := match b with None => n | Some i => bound n i end in (lo, Nat.max lo hi)
  end.
Definition part_of {A} (l : list A) (s : nat * nat) : list A := firstn (snd s - fst s) (skipn (fst s) l).
(** output = r * 0.0; output[rng] = v *)
Definition put (l : list X) (s : nat * nat) (v : out) : result (list W) :=
  match v with
  | ONum w => Ok (map zero_of (firstn (fst s) l) ++ repeat w (length (part_of l s)) ++ map zero_of (skipn (snd s) l))
  | OArr ws => if length ws =? length (part_of l s) then Ok (map zero_of (firstn (fst s) l) ++ ws ++ map zero_of (skipn (snd s) l)) else Err ValueError
  end.

(** value, 359-368 *)
Definition value (r : rkind) (rng : option (option Z * option Z)) : result out :=
  let attempt :=
    match r with
    | Arr l => let s := slice_of (length l) rng in do v <- raw (Arr (part_of l s)); do o <- put l s v; Ok (OArr o)
    | Lst l => Err TypeError                                          (* list * 0.0, 364 *)
    | Num _ => Err TypeError                                          (* len() or [] of a number *)
    | NpNum _ => match rng with None => Err TypeError | Some _ => Err IndexError end
    end in
  match attempt with Err TypeError => raw r | o => o end.

(** jacobian, 229-242: the columns of fixed parameters are None *)
Fixpoint put_all (l : list X) (s : nat * nat) (cs : list (option out)) : result (list (option out)) :=
  match cs with
  | [] => Ok []
  | None :: t => do o <- put_all l s t; Ok (None :: o)
  | Some v :: t => do c <- put l s v; do o <- put_all l s t; Ok (Some (OArr c) :: o)
  end.
Definition jacobian (r : rkind) (rng : option (option Z * option Z)) : result (list (option out)) :=
  let attempt :=
    match r with
    | Arr l => let s := slice_of (length l) rng in do v <- jraw (Arr (part_of l s)); put_all l s v
    | Lst l => let s := slice_of (length l) rng in do v <- jraw (Lst (part_of l s));
        if existsb (fun c => match c with Some _ => true | None => false end) v then Err TypeError else Ok v
    | Num _ => Err TypeError
    | NpNum _ => match rng with None => Err TypeError | Some _ => Err IndexError end
    end in
  match attempt with Err TypeError => jraw r | o => o end.
End Kinds.
Arguments rkind : clear implicits.
Arguments out : clear implicits.

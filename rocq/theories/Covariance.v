(** Model of ModelCovariance (modelcluster.py:42-403).

    Real arithmetic.  A part is its parameters, its free flags and the identifier of its
    function; a function gives its gradient matrix and its converted parameters.  The
    model object is a private copy (109, C15).  Negative integer keys follow numpy for
    matrix look-ups.  An unknown pair (l, m) used as an index reaches numpy as a tuple inside
    an index; what that gives (an array or IndexError) is [Other]. *)
From Coq Require Import Reals.
From Verif Require Import Prelude.
Open Scope R_scope.

(** np.matrix / np.array of two dimensions *)
Record matrix := mkMat { rows : nat; cols : nat; at_ : nat -> nat -> R }.

Section Covariance.
(** format names *)
Variable F : Type.
Variable deriv : nat -> F -> F -> list R -> result (nat -> nat -> R).  (* transform_derivatives *)
Variable trans : nat -> F -> F -> list R -> result (list R).           (* transform_parameters *)

Record cpart := mkCp { cp_fn : nat; cp_pars : list R; cp_free : list bool }.
Definition cp_npars (p : cpart) : nat := length (cp_pars p).
(** ModelParts.npars (C14); a part has as many flags as parameters (C21). *)
Definition total (m : list cpart) : nat := fold_right Nat.add 0%nat (map cp_npars m).
Definition all_free (m : list cpart) : list bool := concat (map cp_free m).
Definition nfree (l : list bool) : nat := length (filter (fun b => b) l).

(** 60-72: cov, model, mmap, pmap, ipmap.  mmap[i] is the range (first, length). *)
Record covar := mkCov {
  cv_cov : option matrix; cv_model : option (list cpart);
  mmap : nat -> option (nat * nat); pmap : nat * nat -> option nat; ipmap : nat -> option (nat * nat) }.
Definition new_covar : covar := mkCov None None (fun _ => None) (fun _ => None) (fun _ => None).
Definition clear (c : covar) : covar := new_covar.

(** *** setcovariance, 78-138 *)
(** 115-121: the maps; [n] is the running parameter number. *)
Definition set1 {A} (f : nat -> option A) (k : nat) (v : A) : nat -> option A := fun k' => if Nat.eqb k' k then Some v else f k'.
Definition set2 {A} (f : nat * nat -> option A) (i j : nat) (v : A) : nat * nat -> option A :=
  fun k => if Nat.eqb (fst k) i && Nat.eqb (snd k) j then Some v else f k.
Fixpoint map_pars (i j n k : nat) (pm : nat * nat -> option nat) (ip : nat -> option (nat * nat)) :=
  match k with
  | O => (pm, ip)
  | S k' => map_pars i (S j) (S n) k' (set2 pm i j n) (set1 ip n (i, j))
  end.
Fixpoint map_parts (i n : nat) (m : list cpart) (mm : nat -> option (nat * nat)) (pm : nat * nat -> option nat)
    (ip : nat -> option (nat * nat)) : nat * ((nat -> option (nat * nat)) * (nat * nat -> option nat) * (nat -> option (nat * nat))) :=
  match m with
  | [] => (n, (mm, pm, ip))
  | p :: r =>
    let '(pm', ip') := map_pars i 0 n (cp_npars p) pm ip in
    map_parts (S i) (n + cp_npars p) r (set1 mm i (n, cp_npars p)) pm' ip'
  end.
(** 127-138: the two loops over all parameters; rawi and rawj count the free ones. *)
Definition put (f : nat -> R) (k : nat) (v : R) : nat -> R := fun k' => if Nat.eqb k' k then v else f k'.
Fixpoint row_loop (free : list bool) (j rawj : nat) (src : nat -> R) (acc : nat -> R) : nat -> R :=
  match free with
  | [] => acc
  | b :: r => if b then row_loop r (S j) (S rawj) src (put acc j (src rawj)) else row_loop r (S j) rawj src acc
  end.
Fixpoint mat_loop (all free : list bool) (i rawi : nat) (src acc : nat -> nat -> R) : nat -> nat -> R :=
  match free with
  | [] => acc
  | b :: r =>
    if b then mat_loop all r (S i) (S rawi) src (fun i' => if Nat.eqb i' i then row_loop all 0 0 (src rawi) (acc i) else acc i')
    else mat_loop all r (S i) rawi src acc
  end.
Definition expand (n : nat) (free : list bool) (cov : matrix) : matrix :=
  mkMat n n (mat_loop free free 0 0 (at_ cov) (fun _ _ => 0)).

Definition setcovariance (c : covar) (m : list cpart) (cov : matrix) : covar * result unit :=
  if negb (Nat.eqb (rows cov) (cols cov)) then (c, Err ValueError) else
  if negb (Nat.eqb (rows cov) (total m)) && negb (Nat.eqb (rows cov) (nfree (all_free m))) then (c, Err ValueError) else
  match m with
  | [] => (mkCov (cv_cov c) (Some []) (mmap c) (pmap c) (ipmap c), Err ValueError)   (* np.concatenate([]) *)
  | _ =>
    let '(n, (mm, pm, ip)) := map_parts 0 0 m (mmap c) (pmap c) (ipmap c) in
    (mkCov (Some (if Nat.eqb n (rows cov) then cov else expand n (all_free m) cov)) (Some m) mm pm ip, Ok tt)
  end.

(** *** Look-ups, 230-338 *)
Inductive key := KInt (z : Z) | KPar (part par : nat).
(** [self.pmap[i] if i in self.pmap else i]; None is an unknown pair *)
Definition index_of (c : covar) (k : key) : option Z :=
  match k with KInt z => Some z | KPar l m => option_map Z.of_nat (pmap c (l, m)) end.
Inductive cell := Num (v : R) | Other.
Definition np_index (n : nat) (z : Z) : result nat :=
  let j := if (z <? 0)%Z then (z + Z.of_nat n)%Z else z in
  if ((j <? 0) || (Z.of_nat n <=? j))%Z then Err IndexError else Ok (Z.to_nat j).
Definition entry (m : matrix) (i j : option Z) : result cell :=
  match i, j with
  | Some i, Some j => do a <- np_index (rows m) i; do b <- np_index (cols m) j; Ok (Num (at_ m a b))
  | _, _ => Ok Other
  end.
(** getcovariance, 294-320 *)
Definition getcovariance (c : covar) (i j : key) : result cell :=
  match cv_cov c with None => Err UndefinedCov | Some m => entry m (index_of c i) (index_of c j) end.
(** getcorrelation, 230-263 *)
Definition getcorrelation (c : covar) (i j : key) : result cell :=
  match cv_cov c with
  | None => Err UndefinedCov
  | Some m =>
    do ii <- entry m (index_of c i) (index_of c i);
    match ii with
    | Other => Ok Other
    | Num vi =>
      if Req_EM_T vi 0 then Ok (Num 0) else
      do jj <- entry m (index_of c j) (index_of c j);
      match jj with
      | Other => Ok Other
      | Num vj =>
        if Req_EM_T vj 0 then Ok (Num 0) else
        do ij <- entry m (index_of c i) (index_of c j);
        match ij with Num v => Ok (Num (v / (sqrt vi * sqrt vj))) | Other => Ok Other end
      end
    end
  end.
(** [i if i in self.pmap else self.ipmap[i]] *)
Definition locate (c : covar) (k : key) : result (nat * nat) :=
  match k with
  | KPar l m => match pmap c (l, m) with Some _ => Ok (l, m) | None => Err KeyError end
  | KInt z => if (z <? 0)%Z then Err KeyError else match ipmap c (Z.to_nat z) with Some q => Ok q | None => Err KeyError end
  end.
(** getvalue, 265-273 *)
Definition getvalue (c : covar) (k : key) : result R :=
  do q <- locate c k;
  match cv_model c with
  | None => Err TypeError
  | Some m => do p <- pyget m (Z.of_nat (fst q)); pyget (cp_pars p) (Z.of_nat (snd q))
  end.
(** getuncertainty, 275-292; np.sqrt of a negative number (NaN) is not modelled *)
Definition getuncertainty (c : covar) (k : key) : result cell :=
  do _ <- locate c k;
  do v <- getcovariance c k k;
  match v with Num x => Ok (Num (sqrt x)) | Other => Ok Other end.
(** get, 322-338 *)
Definition get (c : covar) (k : key) : result (R * cell) :=
  do v <- getvalue c k; do u <- getuncertainty c k; Ok (v, u).

(** correlationwarning, 340-368 *)
Fixpoint warn_row (c : covar) (threshold : R) (i : nat) (js : list nat) : result (list ((nat * nat) * (nat * nat) * R)) :=
  match js with
  | [] => Ok []
  | j :: r =>
    do x <- getcorrelation c (KInt (Z.of_nat i)) (KInt (Z.of_nat j));
    do this <- (match x with
                | Num v => if Req_EM_T v 0 then Ok [] else
                           if Rlt_dec threshold (Rabs v) then
                             match ipmap c i, ipmap c j with Some a, Some b => Ok [(a, b, v)] | _, _ => Err KeyError end
                           else Ok []
                | Other => Err ValueError
                end);
    do rest <- warn_row c threshold i r;
    Ok (this ++ rest)
  end.
Fixpoint warn_all (c : covar) (threshold : R) (n : nat) (is : list nat) : result (list ((nat * nat) * (nat * nat) * R)) :=
  match is with
  | [] => Ok []
  | i :: r => do a <- warn_row c threshold i (seq (S i) (n - S i)); do b <- warn_all c threshold n r; Ok (a ++ b)
  end.
Definition correlationwarning (c : covar) (threshold : R) : result (list ((nat * nat) * (nat * nat) * R)) :=
  match cv_cov c with None => Err UndefinedCov | Some m => warn_all c threshold (rows m) (seq 0 (rows m)) end.

(** *** transform, 140-228 *)
Definition identity (a b : nat) : R := if Nat.eqb a b then 1 else 0.
Fixpoint rsum (n : nat) (f : nat -> R) : R := match n with O => 0 | S k => rsum k f + f k end.
(** 223: g[start:stop, start:stop] = subg *)
Definition set_block (g : nat -> nat -> R) (start len : nat) (sub : nat -> nat -> R) : nat -> nat -> R :=
  fun a b => if Nat.leb start a && Nat.ltb a (start + len) && Nat.leb start b && Nat.ltb b (start + len)
             then sub (a - start)%nat (b - start)%nat else g a b.
(** 195-223 for one part: gradient and parameters.  Any exception of the gradient means the
    identity; an exception of the parameter conversion too. *)
Definition step_part (i o : F) (p : cpart) : (nat -> nat -> R) * cpart :=
  let sub := match deriv (cp_fn p) i o (cp_pars p) with Ok d => d | Err _ => identity end in
  match trans (cp_fn p) i o (cp_pars p) with
  | Ok ps => (sub, mkCp (cp_fn p) ps (cp_free p))
  | Err _ => (identity, p)
  end.
(** The loop over the selected parts; mmap[i][0] of a part without parameters raises
    IndexError, an unknown part number KeyError, and parts already converted stay
    converted. *)
Fixpoint convert (c : covar) (i o : F) (parts : list Z) (m : list cpart) (g : nat -> nat -> R)
    : list cpart * result (nat -> nat -> R) :=
  match parts with
  | [] => (m, Ok g)
  | k :: r =>
    match (if (k <? 0)%Z then None else mmap c (Z.to_nat k)) with
    | None => (m, Err KeyError)
    | Some (start, len) =>
      if Nat.eqb len 0 then (m, Err IndexError) else
      match pyget m k with
      | Err e => (m, Err e)
      | Ok p =>
        let '(sub, p') := step_part i o p in
        convert c i o r (upd m (Z.to_nat k) p') (set_block g start len sub)
      end
    end
  end.
Inductive selection := AllParts | PeaksOnly | BaselineOnly | These (l : list Z).
Definition selected (m : list cpart) (s : selection) : list Z :=
  match s with
  | AllParts => map Z.of_nat (seq 0 (length m))
  | PeaksOnly => map Z.of_nat (seq 0 (length m - 1))
  | BaselineOnly => [(-1)%Z]
  | These l => l
  end.
(** 225-226: g * cov^T * g *)
Definition sandwich (n : nat) (g v : nat -> nat -> R) (a b : nat) : R :=
  rsum n (fun k => rsum n (fun l => g a l * v k l) * g k b).
Definition transform (c : covar) (i o : F) (s : selection) : covar * result unit :=
  match cv_cov c, cv_model c with
  | Some v, Some m =>
    match convert c i o (selected m s) m identity with
    | (m', Err e) => (mkCov (cv_cov c) (Some m') (mmap c) (pmap c) (ipmap c), Err e)
    | (m', Ok g) => (mkCov (Some (mkMat (rows v) (cols v) (sandwich (rows v) g (at_ v)))) (Some m') (mmap c) (pmap c) (ipmap c), Ok tt)
    end
  | _, _ => (c, Err UndefinedCov)
  end.
End Covariance.
Arguments transform {F}.
Arguments convert {F}.
Arguments step_part {F}.

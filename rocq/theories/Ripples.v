(** Model of peaks/terminationripples.py over the real numbers.

    Simplifications: exact real arithmetic; the wrapped peak function is applied point by
    point and finite on the grid; grids are increasing (dr > 0) where a grid spacing is
    computed; scipy's fft and ifft are the discrete Fourier sums they compute. *)
From Coq Require Import Reals.
From Verif Require Import Prelude.
From Verif Require Covariance.
Open Scope R_scope.

Notation rsum := Covariance.rsum.

(** np.ceil followed by int. *)
Definition ceilZ (x : R) : Z := (- Int_part (- x))%Z.
(** np.arange(a, b, step): ceil((b-a)/step) values, none if that is negative. *)
Definition arange (a b step : R) : list R :=
  map (fun i => a + INR i * step) (seq 0 (Z.to_nat (ceilZ ((b - a) / step)))).
Definition rslice (l : list R) (a b : nat) : list R := firstn (b - a) (skipn a l).
(** l[::k], k > 0: elements 0, k, 2k, ... *)
Fixpoint stride_from (k skip : nat) (l : list R) : list R :=
  match l with
  | [] => []
  | a :: r => match skip with O => a :: stride_from k (k - 1) r | S j => stride_from k j r end
  end.
Definition stride (k : nat) (l : list R) : list R := stride_from k 0 l.

(** ** The Fourier transforms *)
Definition angle (N k n : nat) : R := 2 * PI * INR k * INR n / INR N.
(** fp.fft(sequence, N), terminationripples.py:357: the sequence padded with zeros to N. *)
Definition fft (s : list R) (N : nat) : list (R * R) :=
  map (fun k => (rsum (length s) (fun n => nth n s 0 * cos (angle N k n)),
                 - rsum (length s) (fun n => nth n s 0 * sin (angle N k n)))) (seq 0 N).
(** fp.ifft, 364. *)
Definition ifft (X : list (R * R)) : list (R * R) :=
  let N := length X in
  map (fun n => (/ INR N * rsum N (fun k => fst (nth k X (0, 0)) * cos (angle N k n) - snd (nth k X (0, 0)) * sin (angle N k n)),
                 / INR N * rsum N (fun k => fst (nth k X (0, 0)) * sin (angle N k n) + snd (nth k X (0, 0)) * cos (angle N k n))))
      (seq 0 N).
(** X[lo:hi] = 0 with Python's treatment of negative bounds. *)
Definition py_bound (N : nat) (z : Z) : Z := (if z <? 0 then Z.max 0 (z + Z.of_nat N) else z)%Z.
Definition zeroed (N : nat) (lo hi : Z) (k : nat) : bool :=
  ((py_bound N lo <=? Z.of_nat k) && (Z.of_nat k <? py_bound N hi))%Z.
Definition zero_slice (X : list (R * R)) (lo hi : Z) : list (R * R) :=
  map (fun k => if zeroed (length X) lo hi k then (0, 0) else nth k X (0, 0)) (seq 0 (length X)).

Section Ripples.
(** self.qmax > 0, self.extension, self.supersample: 53-57. *)
Variables qmax extension supersample : R.

(** lowidx and hiidx, 358-360.  For a single point dq is infinite and lowidx 0. *)
Definition low_index (N : nat) (delta : R) : Z :=
  if (N =? 1)%nat then 0%Z
  else let dq := 2 * PI / ((INR N - 1) * delta) in ceilZ (qmax / dq).
Definition padlen (n : nat) : nat := (2 ^ Nat.log2_up n)%nat.
(** cut_freq before the imaginary part is dropped, 356-364. *)
Definition cut_complex (s : list R) (delta : R) : list (R * R) :=
  let N := padlen (length s) in
  let lo := low_index N delta in
  let hi := (Z.of_nat N + 1 - lo)%Z in
  ifft (zero_slice (fft s N) lo hi).
(** cut_freq, 339-367. *)
Definition cut_freq (s : list R) (delta : R) : list R :=
  map fst (firstn (length s) (cut_complex s delta)).

(** extend_grid, 369-389: the extended grid, and the slice that selects the original. *)
Definition extend_grid (r : list R) (dr : R) : result (list R * (nat * nat)) :=
  match r with
  | [] => Err IndexError
  | r0 :: _ =>
    let ext := extension * 2 * PI / qmax in
    let left_ext := rev (arange (r0 - dr) (Rmax 0 (r0 - ext - dr)) (- dr)) in
    let right_ext := arange (last r r0 + dr) (last r r0 + ext + dr) dr in
    let ext_r := left_ext ++ r ++ right_ext in
    Ok (ext_r, (length left_ext, (length ext_r - length right_ext)%nat))
  end.

Definition dr_super : R := 2 * PI / (supersample * qmax).
(** (r[-1] - r[0]) / (len(r) - 1) for at least two points. *)
Definition spacing (r : list R) : R := (last r 0 - hd 0 r) / (INR (length r) - 1).

(** output = r*0.0; output[a:b] = v *)
Definition place (n a b : nat) (v : list R) : result (list R) :=
  if (length v =? b - a)%nat then Ok (repeat 0 a ++ v ++ repeat 0 (n - b))
  else match v with
       | [x] => Ok (repeat 0 a ++ repeat x (b - a) ++ repeat 0 (n - b))
       | _ => Err ValueError
       end.

(** The transform applied to one curve [f] over the points [rpart]: extend, evaluate, cut,
    restrict. *)
Definition rippled (f : R -> R) (rpart : list R) (dr : R) : result (list R) :=
  do g <- extend_grid rpart dr;
  let '(ext_r, (a, b)) := g in
  Ok (rslice (cut_freq (map f ext_r) dr) a b).

(** segments, 314-316. *)
Definition segments (r : list R) : Z := ceilZ (spacing r / dr_super).
(** The points between which the function is sampled, 319-321. *)
Definition fine_part (r rpart : list R) : list R :=
  let s := segments r in
  let d := spacing r / IZR s in
  if (1 <? s)%Z then arange (hd 0 rpart) (last rpart 0 + d / 2) d else rpart.

(** value(peak, r, rng) for an array r, 285-330.  [owned]: self is peak._owner; [rng] is the
    slice a:b (None: everything).  With one point dr is 0/0, which int() refuses. *)
Definition value (owned : bool) (f : R -> R) (r : list R) (rng : option (nat * nat)) : result (list R) :=
  if negb owned then Err ValueError else
  let '(a, b) := match rng with None => (0%nat, length r) | Some p => p end in
  match length r with
  | O => Err IndexError
  | S O => Err ValueError
  | _ =>
    let s := segments r in
    match rslice r a b with
    | [] => Err IndexError
    | rpart =>
      do v <- rippled f (fine_part r rpart) (spacing r / IZR s);
      place (length r) a b (stride (Z.to_nat s) v)
    end
  end.
(** value(peak, r) for a number r, 293-298. *)
Definition value_scalar (owned : bool) (f : R -> R) (r : R) : result R :=
  if negb owned then Err ValueError else
  do v <- rippled f [r] dr_super;
  match v with [] => Err IndexError | x :: _ => Ok x end.

(** jacobian(peak, r, rng) for an array r, 228-253.  [js] are the curves of the derivatives
    for the free parameters, None for the others. *)
Definition jac_part (r rpart : list R) (a b : nat) (dr : R) (g : R -> R) : result (list R) :=
  do v <- rippled g rpart dr; place (length r) a b v.
Fixpoint jac_all (r rpart : list R) (a b : nat) (dr : R) (js : list (option (R -> R))) : result (list (option (list R))) :=
  match js with
  | [] => Ok []
  | None :: t => do o <- jac_all r rpart a b dr t; Ok (None :: o)
  | Some g :: t => do v <- jac_part r rpart a b dr g; do o <- jac_all r rpart a b dr t; Ok (Some v :: o)
  end.
Definition jacobian (owned : bool) (js : list (option (R -> R))) (r : list R) (rng : option (nat * nat)) : result (list (option (list R))) :=
  if negb owned then Err ValueError else
  let dr := if (1 <? length r)%nat then spacing r else dr_super in
  let '(a, b) := match rng with None => (0%nat, length r) | Some p => p end in
  match rslice r a b with
  | [] => Err IndexError
  | rpart => jac_all r rpart a b dr js
  end.
(** jacobian(peak, r) for a number r, 254-261: [len(r)] raises TypeError, and the handler reads
    [output], which has not been assigned: UnboundLocalError. *)
Definition jacobian_scalar (owned : bool) (js : list (option (R -> R))) (r : R) : result (list (option R)) :=
  if negb owned then Err ValueError else Err UnboundLocalError.
End Ripples.

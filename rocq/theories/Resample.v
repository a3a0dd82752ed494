(** Model of resample, resampledata, errorscale and stdratio (pdfpeakextraction.py:255-332,
    934-967, 1050-1107).

    Real arithmetic: no rounding, NaN or infinity.  Divisions that would give NaN or
    infinity are [None] where they are part of a result; log messages are not modelled. *)
From Coq Require Import Reals.
From Verif Require Import Prelude Evaluators.
Open Scope R_scope.

(** np.sinc *)
Definition sinc (x : R) : R := if Req_EM_T x 0 then 1 else sin (PI * x) / (PI * x).

(** [new_y += y * sinc(new_r/dr - (i + shift))] for i from [k], 963-965, at one point. *)
Fixpoint sinc_sum (dr shift : R) (k : nat) (ys : list R) (t : R) : R :=
  match ys with
  | [] => 0
  | y :: r => y * sinc (t / dr - (INR k + shift)) + sinc_sum dr shift (S k) r t
  end.
(** resample, 934-967.  The sum runs over all of orig_y, whatever the length of orig_r.
    A one-point grid gives 0/0 (NaN everywhere), here ZeroDivision as ValueError.
    The order of the additions (from the left in the code) is immaterial over the reals. *)
Definition resample (orig_r orig_y new_r : list R) : result (list R) :=
  do r0 <- pyget orig_r 0;
  do rn <- pyget orig_r (-1);
  if (length orig_r =? 1)%nat then Err ValueError else
  let dr := (rn - r0) / (INR (length orig_r) - 1) in
  do _ <- pyget new_r 0;
  Ok (map (sinc_sum dr (r0 / dr) 0 orig_y) new_r).

(** np.arange(start, stop, step) with step > 0: ceil((stop-start)/step) points. *)
Definition ceil (x : R) : Z := (- (up (- x) - 1))%Z.
Definition arange (start stop step : R) : list R :=
  map (fun i => start + INR i * step) (seq 0 (Z.to_nat (ceil ((stop - start) / step)))).

(** np.interp(t, xs, fs): linear between neighbours, constant outside; xs ascending. *)
Fixpoint interp_from (x0 f0 : R) (xs fs : list R) (t : R) : R :=
  match xs, fs with
  | x1 :: xs', f1 :: fs' =>
    if Rltb t x1 then f0 + (f1 - f0) / (x1 - x0) * (t - x0) else interp_from x1 f1 xs' fs' t
  | _, _ => f0
  end.
Definition interp (xs fs : list R) (t : R) : R :=
  match xs, fs with
  | x0 :: xs', f0 :: fs' => if Rltb t x0 then f0 else interp_from x0 f0 xs' fs' t
  | _, _ => 0
  end.

(** errorscale, 312-332 *)
Definition errorscale (qmax : R) (nyquist scale : bool) (dr : R) : R :=
  if Rltb 0 qmax && nyquist && scale then Rmax (sqrt (PI / qmax / dr)) 1 else 1.

(** resampledata, 255-310, after defaultvars: range [lo, hi], dx possibly absent. *)
Definition resampledata (x y : list R) (dx : option (list R)) (edy : list R) (lo hi qmax : R) (nyquist scale : bool) (dr : R)
    : result (list R * list R * option (list R) * list R) :=
  do x0 <- pyget x 0;
  do xn <- pyget x (-1);
  let r := arange (Rmax x0 lo) (Rmin xn hi) dr in
  do ry <- resample x y r;
  Ok (r, ry, option_map (fun d => map (interp x d) r) dx,
      map (fun t => errorscale qmax nyquist scale dr * interp x edy t) r).

(** *** stdratio, 1050-1107 *)
(** One step of the online algorithm (1079-1084): count before, mean, m2. *)
Definition add_one (s : nat * R * R) (v : R) : nat * R * R :=
  let '(n, mean, m2) := s in
  let n' := S n in
  let delta := v - mean in
  let mean' := mean + delta / INR n' in
  (n', mean', m2 + delta * (v - mean')).
(** std_left: m2 after each of the first [k] values. *)
Fixpoint left_run (s : nat * R * R) (vs : list R) : list R :=
  match vs with
  | [] => []
  | v :: r => let s' := add_one s v in snd s' :: left_run s' r
  end.
(** 1095-1106: drop v from the left of the window, add a and b on the right. *)
Definition slide (s : nat * R * R) (v a b : R) : nat * R * R :=
  let '(n, mean, m2) := s in
  let n1 := (n - 1)%nat in
  let delta := v - mean in
  let mean1 := mean - delta / INR n1 in
  let m21 := m2 - delta * (v - mean1) in
  let n2 := (n1 + 2)%nat in
  let mean_add := (a + b) / 2 in
  let m2_add := (a - mean_add) ^ 2 + (b - mean_add) ^ 2 in
  let delta2 := mean_add - mean1 in
  (n2, mean1 + 2 * delta2 / INR n2, m21 + m2_add + delta2 ^ 2 * (2 * INR n2 - 4) / INR n2).
(** 1093-1106 for i, i+1, ... ([k] values of i) *)
Fixpoint right_run (data : list R) (s : nat * R * R) (i k : nat) : result (list R) :=
  match k with
  | O => Ok []
  | S k' =>
    do v <- pyget data (Z.of_nat i);
    do a <- pyget data (Z.of_nat (2 * i));
    do b <- pyget data (Z.of_nat (2 * i + 1));
    let s' := slide s v a b in
    do rest <- right_run data s' (S i) k';
    Ok (snd s' :: rest)
  end.
(** np.sqrt(a / b); None for NaN or infinity *)
Definition ratio (p : R * R) : option R := if Req_EM_T (snd p) 0 then None else Some (sqrt (fst p / snd p)).
Definition stdratio (data : list R) : result (list (option R)) :=
  let limit := (length data / 2)%nat in
  let lf := left_run (O, 0, 0) (firstn limit data) in
  do d2 <- pyget data 2;
  do d3 <- pyget data 3;
  let mean := (d2 + d3) / 2 in
  let m2 := (d2 - mean) ^ 2 + (d3 - mean) ^ 2 in
  do rt <- right_run data (2%nat, mean, m2) 2 (limit - 2);
  Ok (map ratio (combine (skipn 1 lf) (m2 :: rt))).

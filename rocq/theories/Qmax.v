(** Model of find_qmax (pdfpeakextraction.py:970-1047) without the plots.

    Real arithmetic.  A ratio of standard deviations that is not a finite number makes the
    outcome [None] (which index numpy then reports is not modelled). *)
From Coq Require Import Reals.
From Verif Require Import Prelude Resample.
Open Scope R_scope.

(** np.linspace(a, b, m) for m >= 2, used at 993 *)
Definition linspace (a b : R) (m : nat) : list R := map (fun k => a + INR k * ((b - a) / (INR m - 1))) (seq 0 m).
(** np.imag(np.fft.fft(y))[k], 997: the imaginary part of sum_j y_j exp(-2 pi i j k / N) *)
Fixpoint sin_sum (N : nat) (k j : nat) (ys : list R) : R :=
  match ys with [] => 0 | y :: r => y * sin (2 * PI * INR j * INR k / INR N) + sin_sum N k (S j) r end.
Definition fft_imag (ys : list R) : list R := map (fun k => - sin_sum (length ys) k 0 ys) (seq 0 (length ys)).
(** -np.diff(d, 2), 1008 *)
Fixpoint bends (d : list R) : list R :=
  match d with
  | a :: r => match r with b :: c :: _ => - ((c - b) - (b - a)) :: bends r | _ => [] end
  | [] => []
  end.
(** np.argmax: the first maximum, used at 1013 *)
Fixpoint argmax_from (best : R) (besti i : nat) (l : list R) : nat :=
  match l with
  | [] => besti
  | a :: r => if Rlt_dec best a then argmax_from a i (S i) r else argmax_from best besti (S i) r
  end.
Definition argmax (l : list R) : result nat := match l with [] => Err ValueError | a :: r => Ok (argmax_from a 0 1 r) end.
(** np.diff and np.argmax on ratios (1008, 1013): defined here only if all are finite. *)
Fixpoint all_finite (l : list (option R)) : option (list R) :=
  match l with
  | [] => Some []
  | Some a :: r => match all_finite r with Some v => Some (a :: v) | None => None end
  | None :: _ => None
  end.

(** find_qmax, 970-1047, without showgraphs (1021-1045). *)
Definition find_qmax (r y : list R) : result (option (R * R)) :=
  if negb (length r =? length y)%nat then Err ValueError else
  do r0 <- pyget r 0;
  do rn <- pyget r (-1);
  (* one point: dr is NaN, and stdratio of a single value raises *)
  if (length r =? 1)%nat then Err IndexError else
  let dr := (rn - r0) / (INR (length r) - 1) in
  let new_r := linspace r0 rn (2 * length r) in
  do new_y <- resample r y new_r;
  do nrn <- pyget new_r (-1);
  let new_dr := (nrn - r0) / (INR (length new_r) - 1) in
  let yfft := firstn (length new_y / 2) (fft_imag new_y) in
  do d_ratio <- stdratio yfft;
  (* np.argmax of an empty array raises *)
  if (length d_ratio <? 3)%nat then Err ValueError else
  match all_finite d_ratio with
  | None => Ok None
  | Some d =>
    let dder := bends d in
    do a <- argmax (rev dder);
    let m_idx := (length dder - a + 1)%nat in
    let dq := 2 * PI / ((INR (length new_y) - 1) * new_dr) in
    Ok (Some (dq * INR m_idx, 2 * PI / ((INR (length y) - 1) * dr)))
  end.

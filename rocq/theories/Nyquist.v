(** Model of the Nyquist resampling loop of PDFPeakExtraction.extract
    (pdfpeakextraction.py:476-528), on top of ModelCluster.v and Prune.v.

    The sampling intervals are reals; [resampled dr] is resampledata(dr) as arrays of
    scaled integers (see ModelCluster.v); resampledata itself is modelled in Resample.v. *)
From Coq Require Import Reals.
From Verif Require Import Prelude Evaluators ModelCluster Prune.
Open Scope R_scope.

Section Nyquist.
Context {P B Q : Type}.
Variable w : world P B Q.
Variable qk : cluster P B -> nat -> Q.
Variable qargmax : list Q -> nat.
Variable resampled : R -> result (array * array * array).
(** the baseline of the initial extraction, error method and peak functions *)
Variable bl : option B.
Variable em : nat.
Variable pf : list nat.
(** r1[-1]-r1[0] and pi/qmax *)
Variable span drn : R.
Notation cluster := (cluster P B).

Definition free (c : cluster) : nat := npars w c true false.
(** 489-492 *)
Definition interval (total : nat) : R :=
  if Rltb (INR total) (span / drn) then drn else 9999 / 10000 * span / INR total.
(** 500-514: new cluster on the resampled data, fit, prune.  prune needs at most
    len(model)+1 rounds (C42). *)
Definition round (dr : R) (c : cluster) : option (result cluster) :=
  match resampled dr with
  | Err e => Some (Err e)
  | Ok (r2, y2, e2) =>
    match make_cluster w (c_model c) bl r2 y2 e2 None em pf with
    | Err e => Some (Err e)
    | Ok c1 =>
      let f := fit w c1 false 0 false true in
      match fr_out f with
      | Err e => Some (Err e)
      | Ok _ =>
        match prune w qk qargmax (S (length (c_model (fr_c f)))) (fr_c f) with
        | None => None
        | Some (_, Err e) => Some (Err e)
        | Some (m, Ok _) => Some (Ok (set_model (fr_c f) m))
        end
      end
    end
  end.
(** 487-528.  Returns the cluster and the intervals used, last first; None: not finished
    within [fuel] rounds. *)
Fixpoint nyquist_loop (fuel : nat) (c : cluster) (used : list R) : option (result (cluster * list R)) :=
  match fuel with
  | O => None
  | S fuel' =>
    let total := free c in
    let dr := interval total in
    match round dr c with
    | None => None
    | Some (Err e) => Some (Err e)
    | Some (Ok c') =>
      if Req_EM_T dr drn then Some (Ok (c', dr :: used)) else
      if (free c' =? total)%nat then Some (Ok (c', dr :: used)) else
      nyquist_loop fuel' c' (dr :: used)
    end
  end.
End Nyquist.

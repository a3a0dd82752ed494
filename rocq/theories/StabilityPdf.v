(** PeakStability.run (Stability.v) on a PDFPeakExtraction (PdfExtract.v): the extraction that
    run calls at peakstability.py:208-211 is PDFPeakExtraction.extract.

    The part of the extracter Stability.v does not look at ([p_rest]) is the PdfExtract
    object; its effective_dy and baseline are those of Stability.v.  [dec] turns the scaled
    integer uncertainties of Stability.v into floats. *)
From Coq Require Import Reals.
From Verif Require Import Prelude ModelCluster Extract PdfExtract.
From Verif Require Stability.
Open Scope Z_scope.

Section StabilityPdf.
Context {P B Q : Type}.
Variable T : xtools P B Q.
Variable enc : R -> Z.
Variable dec : Z -> R.
Variable owner : P -> nat.
Variable static : P -> bool.
Variable set_owner : P -> nat -> P.
Variable ripples : nat -> bool.
Variable tfunc : nat -> nat.
Variable fuel : nat.
Notation pdf := (@pdf P B).
Notation ppe := (@Stability.ppe P B pdf).

(** peakstability.py:209, setvars(effective_dy=e) *)
Definition data_with (d : data) (edy : list R) : data :=
  mkData (d_x d) (d_y d) (d_dx d) edy (d_lo d) (d_hi d) (d_qmax d) (d_supersample d) (d_nyquist d) (d_scale d).
Definition extracter (p : ppe) (b : B) : pdf :=
  let s := Stability.p_rest p in
  mkPdf (data_with (p_data s) (map dec (Stability.p_edy p))) (p_cres s) (p_pf s) (p_em s) b (p_ip s) None None.
(** peakstability.py:211, 213: what extract() leaves in ppe.baseline and ppe.extracted.  An
    extraction that is not finished within the fuel of the model is an error here.  There is a
    baseline (defaultvars, C48). *)
Definition do_pdf (p : ppe) (b : option B) : option B * result (list P * option (option B) * cluster P B) :=
  match b with
  | None => (None, Err AttributeError)
  | Some b =>
    let s := extracter p b in
    let '(s', o) := pdf_extract T enc owner static set_owner ripples tfunc fuel s in
    (Some (p_bl s'),
     match o, p_extracted s' with
     | Some (Ok _), Some c =>
       Ok (c_model c, (if snd (owned T enc owner static set_owner ripples tfunc fuel s) then None else Some (c_base c)), c)
     | Some (Err e), _ => Err e
     | _, _ => Err AttributeError
     end)
  end.
End StabilityPdf.

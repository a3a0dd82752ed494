(** PDFPeakExtraction on ModelParts: the peaks of EngineLink.v as the peaks of
    PdfExtract.v. *)
From Verif Require Import Prelude Parts ModelCluster EngineLink.
Open Scope nat_scope.

Section Pdf.
Context {V X W : Type}.
Variable fn : nat -> func V X W.
Notation cont := (content V).

(** ModelPart.owner (modelparts.py:598-600), static_owner, and the assignment of
    changeowner (modelparts.py:546-568). *)
Definition part_owner (x : cont) : nat := let '(ow, _, _, _, _) := x in ow.
Definition part_static (x : cont) : bool := let '(_, _, _, _, st) := x in st.
Definition part_set_owner (x : cont) (o : nat) : cont := let '(_, ps, fl, rm, st) := x in (o, ps, fl, rm, st).

(** TerminationRipples(base, ...): its parameters and their conversion are those of the base
    (terminationripples.py:55-75, 166-183).  [tfunc o] is the function made for function
    o, [ripples] tells which functions are termination ripples. *)
Definition ripple_functions (ripples : nat -> bool) (tfunc : nat -> nat) : Prop :=
  (forall o, tfunc o <> o) /\ (forall o, ripples (tfunc o) = true) /\
  (forall o, f_npars (fn (tfunc o)) = f_npars (fn o)) /\
  (forall o l, f_norm (fn (tfunc o)) l = f_norm (fn o) l).

(** ModelPart.npars(count_fixed=False), modelparts.py:731-748: the free parameters. *)
Definition counts_free {B Q} (w : world cont B Q) : Prop :=
  forall ow ps fl rm st, w_p_npars w false (ow, ps, fl, rm, st) = length (filter (fun b => b) fl).
End Pdf.

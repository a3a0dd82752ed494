(** Model of the data drawn by comparepositions and dgseries and of readcompare and main of
    the plotting program (applications/plot.py:81-136, 137-161, 557-586, 588-667).  Axes, styles
    and labels are not modelled.  Real arithmetic. *)
From Coq Require Import Reals String.
From Verif Require Import Prelude Serial.
Open Scope R_scope.

Definition Rleb (a b : R) : bool := if Rle_dec a b then true else false.
(** 94, 150: p >= pmin and p <= pmax; None is infinite *)
Definition within (pmin pmax : option R) (p : R) : bool :=
  match pmin with None => true | Some a => Rleb a p end && match pmax with None => true | Some b => Rleb p b end.
(** 96-102, 104-108: three points for each position, the third with abscissa NaN (None) *)
Definition stems (base height : R) (ps : list R) : list (option R * R) :=
  flat_map (fun p => [(Some p, base); (Some p, base + height); (None, base)]) ps.
Record compared := mkCmp { c_ideal : option (list (option R * R)); c_found : list (option R * R); c_ticks : list R; c_ylim : R * R }.
(** comparepositions, 81-136; [ep]: positions of the extracted peaks *)
Definition comparepositions (ep : list R) (ip : option (list R)) (base yideal yext : R) (pmin pmax : option R) : compared :=
  mkCmp (option_map (stems base yideal) ip) (stems base yext (filter (within pmin pmax) ep))
    match ip with Some _ => [base + / 2 * yideal; base + / 2 * yext] | None => [base + / 2 * yext] end
    match ip with Some _ => (base + yideal, base + yext) | None => (base, base + yext) end.

(** dgseries, 137-161; results: uncertainty and peak positions.  The defaults of dgmin and dgmax are
    evaluated whether or not they are given. *)
Definition dgseries (results : list (R * list R)) (scale : R) (dgmin dgmax : option R) (pmin : R) (pmax : option R) : result (list (R * R)) :=
  do first <- pyget results 0;
  do lst <- pyget results (-1);
  let lo := match dgmin with Some v => v | None => fst first end * scale in
  let hi := match dgmax with Some v => v | None => fst lst end * scale in
  Ok (flat_map (fun r => if negb (Rleb lo (fst r * scale)) || negb (Rleb (fst r * scale) hi) then []
                         else map (fun p => (p, fst r * scale)) (filter (within (Some pmin) pmax) (snd r))) results).

(** readcompare, 557-586: the file is read as bytes and searched with a str pattern *)
Definition readcompare (content : result (list string)) : result (option (list R)) :=
  do _ <- content; Err TypeError.

(** main, 638-667: a file is tried as an extraction, then as a stability file (Serial.read, Serial.load);
    [unpickled]: what pickle finds in it; [next]: what is drawn then. *)
Inductive shown (D : Type) := NotADataFile | Drawn (d : D).
Arguments NotADataFile {D}. Arguments Drawn {D} d.
Definition plot_main {V Rs D} (fresh : @obj V) (content : result (list string)) (unpickled : result (list Rs * list string))
    (next : @obj V -> list Rs -> D) : shown D :=
  match (match content with Err e => (fresh, Err e) | Ok ls => read fresh ls end) with
  | (o, Ok _) => Drawn (next o [])
  | (_, Err _) =>
    match unpickled with
    | Err _ => NotADataFile
    | Ok (rs, ppestr) =>
      let '(s, r) := load (mkSt Rs [] fresh) rs ppestr fresh in
      match r with Ok _ => Drawn (next (st_ppe s) (st_results s)) | Err _ => NotADataFile end
    end
  end.

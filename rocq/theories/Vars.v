(** Model of the extraction variables of PeakExtraction and PDFPeakExtraction:
    setdata, setvars, defaultvars, clear, clearcalc and getrangeslice
    (peakextraction.py:67-253, 720-730; pdfpeakextraction.py:71-253).

    Attributes are a map from names to dynamically typed values, as in Python.  Numbers
    are reals (rounding, NaN and infinities are not modelled).  Arrays are values; which
    attributes share an array object is not represented (effective_dy may be the same
    array object as dy; rng is changed in place, so a list passed by the user changes
    too). *)
From Coq Require Import Reals String.
From Verif Require Import Prelude Evaluators.
Open Scope R_scope.

Section Vars.
(** Peak functions, baseline functions, baselines, error methods, Peaks containers, and
    the contents of calculated members. *)
Context {F BF BL EM PK X : Type}.

Inductive value :=
| VNone
| VNum (v : R)
| VArr (l : list R)
| VBool (b : bool)
| VRng (lo hi : option R)         (* a two-element list; None is Python's None *)
| VStr (s : string)
| VPf (l : list F)
| VBaseFn (f : BF)                (* has estimate_parameters *)
| VBase (b : BL)
| VErr (e : EM)
| VPeaks (p : PK)
| VExtracted (x : X).

(** What these methods use from other modules. *)
Record lib := mkLib {
  gor : R -> F;                                   (* GaussianOverR(maxwidth) *)
  zero_bl : BL;                                   (* Polynomial(-1).actualize([]) *)
  aic : EM;
  no_peaks : PK;
  estimate_bl : BF -> list R -> list R -> result BL   (* estimate_parameters, actualize *);
  find_qmax : list R -> list R -> result R }.
Variable L : lib.

Record obj := mkObj { o_attr : string -> value; o_x : option (list R); o_y : list R; o_dx : list R; o_dy : list R }.
Definition setattr (o : obj) (k : string) (v : value) : obj :=
  mkObj (fun k' => if String.eqb k' k then v else o_attr o k') (o_x o) (o_y o) (o_dx o) (o_dy o).

Open Scope string_scope.
(** extractvars, peakextraction.py:77-87 and pdfpeakextraction.py:73. *)
Definition base_vars : list string :=
  ["effective_dy"; "rng"; "pf"; "initial_peaks"; "baseline"; "cres"; "error_method"].
Definition pdf_vars : list string := base_vars ++ ["qmax"; "supersample"; "nyquist"; "scale"].

(** clearcalc and clear, peakextraction.py:97-121. *)
Definition clearcalc (o : obj) : obj := setattr (setattr o "extracted" VNone) "extraction_type" VNone.
Definition clear (o : obj) : obj :=
  clearcalc (fold_left (fun o k => setattr o k VNone) ["effective_dy"; "cres"; "pf"; "baseline"; "error_method"; "initial_peaks"; "rng"]
    (mkObj (o_attr o) None [] [] [])).
(** pdfpeakextraction.py:109-122. *)
Definition pdf_clear (o : obj) : obj :=
  clear (fold_left (fun o k => setattr o k VNone)
    ["filename"; "nyquist"; "qmax"; "qmax_reportedbypdf"; "qmax_fromdata"; "scale"; "supersample"] o).

(** setdata, peakextraction.py:123-142 (None for dx, dy becomes zeros). *)
Definition zeros (n : nat) : list R := repeat 0 n.
Definition setdata (o : obj) (x y : list R) (dx dy : option (list R)) : obj * result unit :=
  if negb (length x =? length y)%nat then (o, Err ValueError) else
  let dx' := match dx with None => zeros (length x) | Some d => d end in
  let dy' := match dy with None => zeros (length x) | Some d => d end in
  let o' := mkObj (o_attr o) (Some x) y dx' dy' in
  if (negb (length x =? length dx')%nat || negb (length x =? length dy')%nat)%bool then (o', Err ValueError) else (o', Ok tt).
(** pdfpeakextraction.py:91-107. *)
Definition pdf_setdata (o : obj) (x y : list R) (dx dy : option (list R)) : obj * result unit :=
  match setdata o x y dx dy with
  | (o', Err e) => (o', Err e)
  | (o', Ok _) =>
    (match find_qmax L x y with Ok q => setattr o' "qmax_fromdata" (VNum q) | Err _ => o' end, Ok tt)
  end.

(** *** getrangeslice, peakextraction.py:720-730 *)
(** [while self.x[low_idx] < b: low_idx += 1] from index 0. *)
Fixpoint low_index (l : list R) (b : R) : result nat :=
  match l with
  | [] => Err IndexError
  | a :: r => if Rltb a b then do n <- low_index r b; Ok (S n) else Ok 0%nat
  end.
(** [while self.x[hi_idx - 1] > b: hi_idx -= 1]; the index may become negative and wrap. *)
Fixpoint hi_index (fuel : nat) (l : list R) (b : R) (hi : Z) : result Z :=
  match fuel with
  | O => Err IndexError
  | S fuel' =>
    do v <- pyget l (hi - 1);
    if Rltb b v then hi_index fuel' l b (hi - 1) else Ok hi
  end.
Definition getrangeslice (x : list R) (lo hi : R) : result (nat * Z) :=
  do x0 <- pyget x 0;
  do xn <- pyget x (-1);
  do a <- low_index x (Rmax x0 lo);
  do b <- hi_index (2 * length x + 1) x (Rmin xn hi) (Z.of_nat (length x));
  Ok (a, b).
(** [x[slice(a, b)]] for 0 <= a and 0 <= b. *)
Definition take_slice {A} (l : list A) (s : nat * Z) : list A := firstn (Z.to_nat (snd s) - fst s) (skipn (fst s) l).

(** *** defaultvars, peakextraction.py:174-253, step by step *)
Definition step := obj -> obj * result unit.
Definition seq_steps (ss : list step) (o : obj) : obj * result unit :=
  fold_left (fun acc s => match acc with (o, Ok _) => s o | (o, Err e) => (o, Err e) end) ss (o, Ok tt).
Definition is_none (v : value) : bool := match v with VNone => true | _ => false end.
Definition wanted (args : list string) (o : obj) (k : string) : bool := is_none (o_attr o k) || existsb (String.eqb k) args.
Definition with_x (o : obj) (f : list R -> obj * result unit) : obj * result unit :=
  match o_x o with None => (o, Err TypeError) | Some x => f x end.
Definition first_last (o : obj) (x : list R) (f : R -> R -> obj * result unit) : obj * result unit :=
  match x with [] => (o, Err IndexError) | a :: _ => f a (last x a) end.
Definition list_max (l : list R) : R := match l with [] => 0 | a :: r => fold_left Rmax r a end.
Definition list_min (l : list R) : R := match l with [] => 0 | a :: r => fold_left Rmin r a end.

(* 205-206 *)
Definition step_cres (args : list string) : step := fun o =>
  if wanted args o "cres" then with_x o (fun x => first_last o x (fun a b =>
    (setattr o "cres" (VNum (4 * (b - a) / INR (length x))), Ok tt))) else (o, Ok tt).
(* 208-216; an empty y makes np.max raise ValueError *)
Definition step_edy (args : list string) : step := fun o =>
  if wanted args o "effective_dy" then
    if forallb (fun d => Rltb 0 d) (o_dy o) then (setattr o "effective_dy" (VArr (o_dy o)), Ok tt)
    else with_x o (fun x => match o_y o with [] => (o, Err ValueError) | _ =>
      (setattr o "effective_dy" (VArr (repeat (5 / 100 * (list_max (o_y o) - list_min (o_y o))) (length x))), Ok tt) end)
  else match o_attr o "effective_dy" with
       | VNum d => if Rltb 0 d then with_x o (fun x => (setattr o "effective_dy" (VArr (repeat d (length x))), Ok tt)) else (o, Ok tt)
       | _ => (o, Ok tt)
       end.
(* 218-222 *)
Definition step_pf (args : list string) : step := fun o =>
  if wanted args o "pf" then with_x o (fun x => first_last o x (fun a b =>
    (setattr o "pf" (VPf [gor L (b - a)]), Ok tt))) else (o, Ok tt).
(* 224-230 *)
Definition step_rng (args : list string) : step := fun o =>
  if wanted args o "rng" then with_x o (fun x => first_last o x (fun a b =>
    (setattr o "rng" (VRng (Some a) (Some b)), Ok tt)))
  else match o_attr o "rng" with
       | VRng (Some _) (Some _) => (o, Ok tt)
       | VRng lo hi => with_x o (fun x => first_last o x (fun a b =>
           (setattr o "rng" (VRng (Some (match lo with None => a | Some v => v end)) (Some (match hi with None => b | Some v => v end))), Ok tt)))
       | _ => (o, Err TypeError)
       end.
(* 233-241 *)
Definition step_estimate : step := fun o =>
  match o_attr o "baseline" with
  | VBaseFn f =>
    match o_attr o "rng" with
    | VRng (Some lo) (Some hi) => with_x o (fun x =>
      match getrangeslice x lo hi with
      | Err e => (o, Err e)
      | Ok s =>
        match estimate_bl L f (take_slice x s) (take_slice (o_y o) s) with
        | Ok b => (setattr o "baseline" (VBase b), Ok tt)
        | Err NotImplementedErr => (setattr o "baseline" VNone, Ok tt)
        | Err EstimationError => (setattr o "baseline" VNone, Ok tt)
        | Err e => (o, Err e)
        end
      end)
    | _ => (o, Err TypeError)
    end
  | _ => (o, Ok tt)
  end.
(* 243-247, 249-252, 254-255 *)
Definition step_const (k : string) (v : value) (args : list string) : step := fun o =>
  if wanted args o k then (setattr o k v, Ok tt) else (o, Ok tt).
Definition defaultvars (args : list string) : step :=
  seq_steps [step_cres args; step_edy args; step_pf args; step_rng args; step_estimate;
             step_const "baseline" (VBase (zero_bl L)) args; step_const "error_method" (VErr (aic L)) args;
             step_const "initial_peaks" (VPeaks (no_peaks L)) args].

(** *** setvars, peakextraction.py:144-172; [kwds] in call order *)
Fixpoint store (known : list string) (kwds : list (string * value)) (o : obj) : obj * result unit :=
  match kwds with
  | [] => (o, Ok tt)
  | (k, v) :: r => if existsb (String.eqb k) known then store known r (setattr o k v) else (o, Err ValueError)
  end.
Definition setvars_with (known : list string) (dflt : list string -> step) (kwds : list (string * value)) (o : obj) : obj * result unit :=
  match store known kwds o with
  | (o', Err e) => (o', Err e)
  | (o', Ok _) => dflt [] o'
  end.
Definition setvars := setvars_with base_vars defaultvars.

(** *** PDFPeakExtraction *)
Definition removed (k : string) (args : list string) : list string := filter (fun a => negb (String.eqb a k)) args.
Definition posnum (v : value) : result bool := match v with VNum q => Ok (Rltb 0 q) | _ => Err TypeError end.
(** defaultvars, pdfpeakextraction.py:189-253.  [nargs.remove] removes one occurrence; the
    arguments are assumed distinct.  The branches at 222-226 are equal. *)
Definition step_qmax (args : list string) : step := fun o =>
  if wanted args o "qmax" then
    (setattr o "qmax" (match o_attr o "qmax_reportedbypdf" with
                       | VNone => match o_attr o "qmax_fromdata" with VNone => VNum 0 | v => v end
                       | v => v end), Ok tt)
  else (o, Ok tt).
Definition step_nyquist (args : list string) : step := fun o =>
  if wanted args o "nyquist" then
    match posnum (o_attr o "qmax") with Ok b => (setattr o "nyquist" (VBool b), Ok tt) | Err e => (o, Err e) end
  else (o, Ok tt).
Definition step_pdfcres (args : list string) : step := fun o =>
  if wanted args o "cres" then
    match o_attr o "qmax" with
    | VNum q => if Rltb 0 q then (setattr o "cres" (VNum (PI / q)), Ok tt) else (o, Ok tt)
    | _ => (o, Err TypeError)
    end
  else (o, Ok tt).
Definition pdf_nargs (args : list string) (o : obj) : list string :=
  let n1 := removed "pf" (removed "supersample" (removed "scale" (removed "nyquist" (removed "qmax" args)))) in
  let n2 := match o_attr o "qmax" with VNum q => if Rltb 0 q then removed "cres" n1 else n1 | _ => n1 end in
  if existsb (String.eqb "dg") args && negb (existsb (String.eqb "effective_dy") args) then (n2 ++ ["effective_dy"])%list else n2.
Definition pdf_defaultvars (args : list string) : step := fun o =>
  match seq_steps [step_qmax args; step_nyquist args; step_const "scale" (VBool false) args;
                   step_const "supersample" (VNum 4) args; step_pdfcres args; step_const "pf" (VPf [gor L (7 / 10)]) args] o with
  | (o', Err e) => (o', Err e)
  | (o', Ok _) => defaultvars (pdf_nargs args o') o'
  end.

Fixpoint lookup (k : string) (kwds : list (string * value)) : option value :=
  match kwds with [] => None | (k', v) :: r => if String.eqb k k' then Some v else lookup k r end.
Definition without (k : string) (kwds : list (string * value)) := filter (fun p => negb (String.eqb k (fst p))) kwds.
Fixpoint replace (k : string) (v : value) (kwds : list (string * value)) : list (string * value) :=
  match kwds with [] => [] | (k', v') :: r => if String.eqb k k' then (k', v) :: r else (k', v') :: replace k v r end.
(** setvars, pdfpeakextraction.py:124-187. *)
Definition pdf_setvars (kwds : list (string * value)) (o : obj) : obj * result unit :=
  let r :=
    do k1 <- (match lookup "dg" kwds with
              | None => Ok kwds
              | Some v => match lookup "effective_dy" kwds with
                          | None => Ok (without "dg" kwds ++ [("effective_dy", v)])%list
                          | Some _ => Err ValueError end
              end);
    do k2 <- (match lookup "qmax" k1 with
              | Some (VStr s) =>
                if String.eqb s "automatic" then
                  match o_attr o "qmax_fromdata" with VNone => Err QmaxError | v => Ok (replace "qmax" v k1) end
                else Ok k1
              | _ => Ok k1
              end);
    match lookup "supersample" k2 with
    | None => Ok k2
    | Some (VNum s) => if Rltb s 1 then Err ValueError else Ok k2
    | Some _ => Err TypeError
    end in
  match r with
  | Err e => (o, Err e)
  | Ok k => setvars_with pdf_vars pdf_defaultvars k o
  end.
End Vars.
Arguments value : clear implicits.
Arguments obj : clear implicits.
Arguments lib : clear implicits.

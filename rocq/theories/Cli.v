(** Model of the command line program, applications/extract.py:main and parsepars.

    Recognising options in the argument list is optparse's work: the model starts from the
    values optparse stores (None: option not given).  Python's float() and eval() of
    user-supplied text, numpy, files and the user's shell are parameters.  Printing, plotting
    and logging levels are left out. *)
From Coq Require Import Reals String Ascii.
From Verif Require Import Prelude Evaluators Vars Baselines LoadProps.
From Verif Require Serial.
Open Scope R_scope.
Open Scope string_scope.

(** A baseline built from options: a polynomial, highest power first, a spherical
    nanoparticle, or values interpolated from a file; each parameter with its "free" mark. *)
Inductive baseline :=
| Poly (pars : list (R * bool))
| Spherical (scale radius : R * bool)
| Sequence (file : string).
(** len(baseline), modelparts.py:727-729 *)
Definition bl_len (b : baseline) : nat :=
  match b with Poly l => List.length l | Spherical _ _ => 2 | Sequence _ => 0 end.

Inductive dgmode := Absolute | Data | MaxFraction | PtpFraction | DGFraction.

(** What optparse delivers, extract.py:104-436. *)
Record options := mkOptions {
  op_extract : bool;                      (* --extract (default), --no-extract *)
  op_range : option (R * R);
  op_qmax : option string;
  op_nyquist : option bool;               (* --nyquist, --no-nyquist *)
  op_pf : option string;
  op_cres : option R;
  op_supersample : option R;
  op_me : option string;
  op_baseline : option string;
  op_bcrystal : option string;
  op_bsrmise : option string;
  op_bpoly0 : option string;
  op_bpoly1 : option (string * string);
  op_bpoly2 : option (string * string * string);
  op_bseq : option string;
  op_bspherical : option (string * string);
  op_dgmode : option dgmode;
  op_dg : option R;
  op_scale : option bool;
  op_save : option string;
  op_pwa : option string }.
(** Python's truth value of what optparse stores. *)
Definition given (o : option string) : option string := match o with Some "" => None | v => v end.
Definition nonzero (o : option R) : option R := match o with Some v => if Req_EM_T v 0 then None else Some v | None => None end.
Definition switched_on (o : option bool) : bool := match o with Some true => true | _ => false end.

(** dg_defaults, extract.py:117-123 *)
Definition dg_default (m : dgmode) : option R :=
  match m with Absolute => None | Data => None | MaxFraction => Some (5 / 100) | PtpFraction => Some (5 / 100) | DGFraction => Some 1 end.

(** p[:-1] and p[-1] *)
Fixpoint split_last (c : ascii) (s : string) : string * ascii :=
  match s with "" => ("", c) | String d r => let '(a, b) := split_last d r in (String c a, b) end.

(** The names eval() finds when main evaluates --pf and --me: the module's globals (12-33,
    36, 619, 648) and the locals assigned before (38-456). *)
Definition visible : list string :=
  ["textwrap"; "IndentedHelpFormatter"; "OptionGroup"; "OptionParser"; "plt"; "np"; "_baseline_namespace"; "main"; "parsepars"; "IndentedHelpFormatterWithNL";
   "usage"; "__version__"; "version"; "descr"; "epilog"; "parser"; "dg_defaults"; "group"; "options"; "args"; "srmiselog"; "PDFPeakExtraction";
   "SrMiseDataFormatError"; "SrMiseFileError"].

(** How the run goes: optparse prints an error and exits; main prints a message and returns;
    an exception escapes; or it goes on. *)
Inductive phase (A : Type) := Usage | Declined | Raised (e : exn) | Goes (a : A).
Arguments Usage {A}. Arguments Declined {A}. Arguments Raised {A}. Arguments Goes {A}.
Definition lift {A} (r : result A) : phase A := match r with Ok a => Goes a | Err e => Raised e end.
Definition andthen {A C} (p : phase A) (f : A -> phase C) : phase C :=
  match p with Usage => Usage | Declined => Declined | Raised e => Raised e | Goes a => f a end.

Section Cli.
Context {F BF EM PK X : Type}.
Variable L : lib F BF baseline EM PK.
Notation value := (value F BF baseline EM PK X).
Notation obj := (obj F BF baseline EM PK X).

(** The world around main. *)
Record env := mkEnv {
  e_float : string -> result R;                   (* float(text) *)
  e_pf : string -> result F;                      (* what "peaks.<text>" would be *)
  e_me : string -> result EM;
  e_baseline : string -> result BF;               (* eval(text) among the baseline classes, 522-526 *)
  e_sequence : string -> result unit;             (* FromSequence(file) *)
  e_text : string -> option (list string);        (* content of a file; None: cannot be opened *)
  e_pdf : string -> result (list R * list R * list R * list R * R);   (* PDFDataSet.read *)
  e_ptp : bool;                                   (* numpy arrays have a method ptp (numpy < 2) *)
  e_extract : obj -> obj * result unit;           (* PDFPeakExtraction.extract *)
  e_writestr : obj -> result string; e_writepwastr : obj -> result string;
  e_open : string -> result unit }.               (* open(file, "w") and write *)
Variable E : env.

(** parsepars, 619-646, up to the call of actualize *)
Definition parse1 (p : string) : result (R * bool) :=
  match p with
  | "" => Err IndexError
  | String c r => let '(a, l) := split_last c r in
      if Ascii.eqb l "c" then do v <- e_float E a; Ok (v, false) else do v <- e_float E p; Ok (v, true)
  end.
Fixpoint parsepars (ps : list string) : result (list (R * bool)) :=
  match ps with [] => Ok [] | p :: r => do v <- parse1 p; do vs <- parsepars r; Ok (v :: vs) end.

(** read() of a .srmise file (peakextraction.py:306-328 as in Serial.v) *)
Definition read_srmise (file : string) : result unit :=
  match e_text E file with None => Err GenericException | Some t => snd (Serial.read (fun _ : string => @None unit) t) end.

(** --pf and --me, 447-475: eval("peaks." + text) *)
Definition eval_module {A} (m : string) (r : result A) : option A :=
  if existsb (String.eqb m) visible then match r with Ok a => Some a | Err _ => None end else None.

(** The baseline, 477-538; None: no baseline option. *)
Definition chosen_baseline (op : options) : phase (option value) :=
  match given (op_bcrystal op) with
  | Some s => lift (do l <- parsepars [s; "0c"];
                    match l with (v, f) :: r => Ok (Some (VBase (Poly ((-4 * PI * v, f) :: r)))) | [] => Err IndexError end)
  | None =>
  match given (op_bsrmise op) with
  | Some f => lift (do _ <- read_srmise f; Err AttributeError)      (* never reached, C127 *)
  | None =>
  match given (op_bpoly0 op) with
  | Some s => lift (do l <- parsepars [s]; Ok (Some (VBase (Poly l))))
  | None =>
  match op_bpoly1 op with
  | Some (a, b) => lift (do l <- parsepars [a; b]; Ok (Some (VBase (Poly l))))
  | None =>
  match op_bpoly2 op with
  | Some (a, b, c) => lift (do l <- parsepars [a; b; c]; Ok (Some (VBase (Poly l))))
  | None =>
  match given (op_bseq op) with
  | Some f => lift (do _ <- e_sequence E f; Ok (Some (VBase (Sequence f))))
  | None =>
  match op_bspherical op with
  | Some (s, r) => lift (do l <- parsepars [s; r];
                         match l with
                         | [(a, fa); (b, fb)] => Ok (Some (VBase (Spherical (fst (nano_normal a b), fa) (snd (nano_normal a b), fb))))
                         | _ => Err ValueError end)
  | None =>
  match op_baseline op with
  | Some s => match e_baseline E s with Ok f => Goes (Some (VBaseFn f)) | Err _ => Declined end
  | None => Goes None
  end end end end end end end end.
(** [if options.baseline:], 552: objects with a length are true unless it is 0. *)
Definition truthy (v : option value) : option value :=
  match v with Some (VBase b) => if (bl_len b =? 0)%nat then None else v | _ => v end.

(** The file, 541-547: read() first, any exception leads to loadpdf. *)
Definition fresh : obj := mkObj (fun _ => VNone) None [] [] [].
Definition load (file : string) : obj * result unit :=
  match read_srmise file with
  | Ok _ => (fresh, Ok tt)                       (* never reached, C127 *)
  | Err _ => loadpdf L (e_pdf E file) (Some file) fresh
  end.

(** The uncertainties, 556-574. *)
Definition uncertainties (op : options) (o : obj) : result (list (string * value)) :=
  let mode := match op_dgmode op with
              | Some m => m
              | None => match nonzero (op_dg op) with
                        | Some _ => Absolute
                        | None => match o_x o with None => MaxFraction | Some _ => DGFraction end      (* ext.dy is None *)
                        end
              end in
  let dg := match op_dg op with Some d => Some d | None => dg_default mode end in
  let times (l : list R) := match dg with None => Err TypeError | Some d => Ok [("effective_dy", VArr (map (Rmult d) l))] end in
  let n := match o_x o with None => 0%nat | Some x => List.length x end in
  match mode with
  | Absolute => times (repeat 1 n)
  | MaxFraction => match o_y o with [] => Err ValueError | _ => times (repeat (list_max (o_y o)) n) end
  | PtpFraction => if e_ptp E then match o_y o with [] => Err ValueError | _ => times (repeat (list_max (o_y o) - list_min (o_y o)) (List.length (o_y o))) end
                   else Err AttributeError
  | DGFraction => times (o_dy o)
  | Data => Ok []
  end.

(** pdict, 549-588 *)
Definition opt_kw (k : string) (v : option value) : list (string * value) := match v with Some v => [(k, v)] | None => [] end.
Definition qmax_kw (op : options) : result (list (string * value)) :=
  match given (op_qmax op) with
  | None => Ok []
  | Some s => if String.eqb s "automatic" then Ok [("qmax", VStr s)] else do q <- e_float E s; Ok [("qmax", VNum q)]
  end.
Definition settings (op : options) (pf : option F) (bl : option value) (me : option EM) (o : obj) : result (list (string * value)) :=
  do dg <- uncertainties op o;
  do q <- qmax_kw op;
  Ok (opt_kw "pf" (option_map (fun f => VPf [f]) pf) ++
      opt_kw "baseline" (truthy bl) ++
      opt_kw "cres" (option_map VNum (nonzero (op_cres op))) ++
      dg ++
      opt_kw "rng" (option_map (fun r => VRng (Some (fst r)) (Some (snd r))) (op_range op)) ++
      q ++
      (if switched_on (op_nyquist op) then [("nyquist", VBool true)] else []) ++
      opt_kw "supersample" (option_map VNum (nonzero (op_supersample op))) ++
      (if switched_on (op_scale op) then [("scale", VBool true)] else []) ++
      opt_kw "error_method" (option_map VErr me))%list.

(** main up to and including setvars, 438-595 *)
Definition pick_module {A} (m : string) (text : option string) (r : string -> result A) : phase (option A) :=
  match given text with
  | None => Goes None
  | Some s => match eval_module m (r s) with Some a => Goes (Some a) | None => Declined end
  end.
Definition prepare (op : options) (args : list string) : phase obj :=
  match args with
  | [file] =>
    andthen (pick_module "peaks" (op_pf op) (e_pf E)) (fun pf =>
    andthen (pick_module "modelevaluators" (op_me op) (e_me E)) (fun me =>
    andthen (chosen_baseline op) (fun bl =>
    if String.eqb file "" then Declined else                               (* 540: nothing is done *)
    match load file with
    | (_, Err e) => Raised e
    | (o, Ok _) =>
      andthen (lift (settings op pf bl me o)) (fun kw =>
      match pdf_setvars L kw o with (o', Ok _) => Goes o' | (_, Err e) => Raised e end)
    end)))
  | _ => Usage
  end.

(** Extraction and saving, 596-615: the files written, in order, and the outcome. *)
Definition save (file : option string) (text : result string) : list (string * string) * result unit :=
  match given file with
  | None => ([], Ok tt)
  | Some f =>
    match (do t <- text; do _ <- e_open E f; Ok t) with
    | Ok t => ([(f, t)], Ok tt)
    | Err FileError => ([], Ok tt)                 (* except SrMiseFileError *)
    | Err e => ([], Err e)
    end
  end.
Definition finish (op : options) (o : obj) : obj * list (string * string) * result unit :=
  match (if op_extract op then e_extract E o else (o, Ok tt)) with
  | (o1, Err e) => (o1, [], Err e)
  | (o1, Ok _) =>
    match save (op_save op) (e_writestr E o1) with
    | (w1, Err e) => (o1, w1, Err e)
    | (w1, Ok _) => match save (op_pwa op) (e_writepwastr E o1) with (w2, r) => (o1, (w1 ++ w2)%list, r) end
    end
  end.
Definition main (op : options) (args : list string) : phase (obj * list (string * string) * result unit) :=
  andthen (prepare op args) (fun o => Goes (finish op o)).
End Cli.
Arguments env : clear implicits.

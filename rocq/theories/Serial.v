(** Model of the text form of functions, model parts and models:
    BaseFunction.writestr/factory (basefunction.py:403-497), ModelPart.writestr
    (modelparts.py:770-799), Peak.factory (peaks/base.py:274-305), Baseline.factory
    (baselines/base.py:165-198), ModelCluster.writestr/factory (modelcluster.py:533-780),
    PeakExtraction.read/readstr (peakextraction.py:306-544), PeakStability.load
    (peakstability.py:43-69) and FromSequence.readxy (baselines/fromsequence.py:249-278).

    Characters are 8-bit; line breaks and blanks are the ASCII ones.  [repr] and [eval]
    of Python values are parameters. *)
From Coq Require Import String Ascii.
From Verif Require Import Prelude Functions Tracer.
Open Scope string_scope.

(** *** str *)
(** str.splitlines: line boundaries (the non-ASCII ones are left out) *)
Definition isbreak (c : ascii) : bool :=
  let n := nat_of_ascii c in ((10 <=? n) && (n <=? 13) || (28 <=? n) && (n <=? 30))%nat.
(** str.isspace, \s *)
Definition isblank (c : ascii) : bool :=
  let n := nat_of_ascii c in ((9 <=? n) && (n <=? 13) || (28 <=? n) && (n <=? 32))%nat.
Definition LF : ascii := ascii_of_nat 10.
Definition CR : ascii := ascii_of_nat 13.
Definition newline : string := String LF "".
(** str.splitlines; "\r\n" is one break and no empty line follows the last break *)
Fixpoint splitlines_from (cur : string) (s : string) : list string :=
  match s with
  | "" => match cur with "" => [] | _ => [cur] end
  | String c r =>
    if isbreak c then
      match r with
      | String d r' => if (Ascii.eqb c CR && Ascii.eqb d LF)%bool then cur :: splitlines_from "" r' else cur :: splitlines_from "" r
      | "" => [cur]
      end
    else splitlines_from (cur ++ String c "") r
  end.
Definition splitlines (s : string) : list string := splitlines_from "" s.
(** "\n".join *)
Fixpoint join (sep : string) (ls : list string) : string :=
  match ls with
  | [] => ""
  | [l] => l
  | l :: r => l ++ sep ++ join sep r
  end.
(** str.strip *)
Fixpoint lstrip (s : string) : string :=
  match s with String c r => if isblank c then lstrip r else s | "" => "" end.
Fixpoint rstrip (s : string) : string :=
  match s with
  | "" => ""
  | String c r => match rstrip r with "" => if isblank c then "" else String c "" | r' => String c r' end
  end.
Definition strip (s : string) : string := rstrip (lstrip s).
(** str.split("=", 1) with two results *)
Fixpoint split_eq (s : string) : option (string * string) :=
  match s with
  | "" => None
  | String c r => if Ascii.eqb c "=" then Some ("", r) else match split_eq r with Some (k, v) => Some (String c k, v) | None => None end
  end.

Section Serial.
(** Python values; [V] also has the values None, the integers and strings *)
Context {V : Type}.
Variable repr : V -> string.
Variable eval : string -> result V.
Variables (vnone : V) (vint : Z -> V) (vstr : string -> V).
(** the integer of a value used as an index *)
Variable as_int : V -> option Z.
Variable is_none : V -> bool.

(** *** Functions *)
(** (\S+)= at the start of a line: the longest key, so up to the last equals sign of the
    first word *)
Fixpoint key_line (s : string) : option (string * string) :=
  match s with
  | "" => None
  | String c r =>
    if isblank c then None else
    match key_line r with
    | Some (k, v) => Some (String c k, v)
    | None => match r with String d r' => if Ascii.eqb d "=" then Some (String c "", r') else None | "" => None end
    end
  end.
Fixpoint drop_blank_lines_at_end (ls : list string) : list string :=
  match ls with
  | [] => []
  | l :: r => match drop_blank_lines_at_end r with [] => match l with "" => [] | _ => [l] end | r' => l :: r' end
  end.
(** re.split(r"(?:[\r\n]+|\A)(\S+)=", data), 457: text before the first key, and the keys
    with their texts.  Line breaks before a key belong to it. *)
Fixpoint entries (ls : list string) : list string * list (string * list string) :=
  match ls with
  | [] => ([], [])
  | l :: r =>
    let '(c, es) := entries r in
    let c' := match es with [] => c | _ => drop_blank_lines_at_end c end in
    match key_line l with
    | Some (k, v) => ([], (k, v :: c') :: es)
    | None => (l :: c', es)
    end
  end.
(** dict: the last value of a key *)
Fixpoint dlookup {A} (k : string) (d : list (string * A)) : option A :=
  match d with
  | [] => None
  | (k', a) :: r => match dlookup k r with Some b => Some b | None => if String.eqb k k' then Some a else None end
  end.
Fixpoint ddelete {A} (k : string) (d : list (string * A)) : list (string * A) :=
  match d with
  | [] => []
  | (k', a) :: r => if String.eqb k k' then ddelete k r else (k', a) :: ddelete k r
  end.
Definition get {A} (k : string) (d : list (string * A)) : result A := match dlookup k d with Some a => Ok a | None => Err KeyError end.
(** 464-471 *)
Fixpoint evals (es : list (string * list string)) : result (list (string * V)) :=
  match es with
  | [] => Ok []
  | (k, ls) :: r =>
    match eval (join newline ls) with
    | Err _ => Err DataFormatError
    | Ok v => do d <- evals r; Ok ((k, v) :: d)
    end
  end.

(** A function object: class, module, base and metadict (argument names with their values
    and the texts written for them); [F] are function objects. *)
Context {F : Type}.
Variable fclass fmodule : F -> string.
Variable fbase : F -> option F.
Variable fmeta : F -> list (string * V).
Variable ftext : V -> string.            (* f(v) of metadict, 433; repr for the functions supplied *)
Variable feq : F -> F -> bool.           (* identity *)
(** __import__, getattr and the call of the class, 480-497, with or without base=; the
    metadata are keyword arguments *)
Variable construct : V -> V -> option F -> list (string * V) -> result F.

Fixpoint findex (f : F) (l : list F) : option nat :=
  match l with
  | [] => None
  | g :: r => if feq f g then Some 0%nat else option_map S (findex f r)
  end.
(** BaseFunction.writestr, 403-434 *)
Definition fun_lines (baselist : list F) (f : F) : result (list string) :=
  do b <- match fbase f with
          | None => Ok vnone
          | Some g => match findex g baselist with Some i => Ok (vint (Z.of_nat i)) | None => Err ValueError end
          end;
  Ok (("function=" ++ repr (vstr (fclass f))) :: ("module=" ++ repr (vstr (fmodule f))) :: ("base=" ++ repr b) ::
      map (fun kv => fst kv ++ "=" ++ ftext (snd kv)) (fmeta f)).
Definition fun_writestr (baselist : list F) (f : F) : result string :=
  do ls <- fun_lines baselist f; Ok (join newline ls ++ newline).
(** BaseFunction.factory, 437-497 *)
Definition fun_factory (s : string) (baselist : list F) : result F :=
  do d <- evals (snd (entries (splitlines s)));
  do cls <- get "function" d;
  do mdl <- get "module" (ddelete "function" d);
  let d1 := ddelete "module" (ddelete "function" d) in
  do b <- get "base" d1;
  if is_none b then construct cls mdl None (ddelete "base" d1)
  else match as_int b with
       | None => Err TypeError
       | Some i => do g <- factory_ref i baselist; construct cls mdl (Some g) (ddelete "base" d1)
       end.
(** Writing a list, modelcluster.py:571-583, and reading the texts in order, 694-708 *)
Fixpoint write_funs (baselist l : list F) : result (list string) :=
  match l with
  | [] => Ok []
  | f :: r => do s <- fun_writestr baselist f; do t <- write_funs baselist r; Ok (s :: t)
  end.
Fixpoint read_funs (ss : list string) (acc : list F) : result (list F) :=
  match ss with
  | [] => Ok acc
  | s :: r => do f <- fun_factory s acc; read_funs r (acc ++ [f])%list
  end.

(** *** Parts *)
Record part := mkPart { part_owner : F; part_pars : list V; part_free : list V; part_removable : V; part_static : V }.
Variable npars : F -> nat.
(** the values of a Python list *)
Variable as_list : V -> option (list V).
(** np.array(free, dtype=bool) of a list *)
Variable truth : V -> V.
(** modelparts.py:770-799 *)
Definition part_lines (ownerlist : list F) (p : part) : result (list string) :=
  match findex (part_owner p) ownerlist with
  | None => Err ValueError
  | Some i => Ok ["owner=" ++ repr (vint (Z.of_nat i));
                  "pars=[" ++ join ", " (map repr (part_pars p)) ++ "]";
                  "free=[" ++ join ", " (map repr (part_free p)) ++ "]";
                  "removable=" ++ repr (part_removable p);
                  "static_owner=" ++ repr (part_static p)]
  end.
Definition part_writestr (ownerlist : list F) (p : part) : result string :=
  do ls <- part_lines ownerlist p; Ok (join newline ls ++ newline).
(** the dictionary, peaks/base.py:282-296, baselines/base.py:175-189 *)
Fixpoint part_dict (ls : list string) : result (list (string * V)) :=
  match ls with
  | [] => Ok []
  | l :: r =>
    match split_eq l with
    | None => Err DataFormatError
    | Some (k, t) => match eval t with Err _ => Err DataFormatError | Ok v => do d <- part_dict r; Ok ((k, v) :: d) end
    end
  end.
(** the constructors, peaks/base.py:221 and baselines/base.py:134 with modelparts.py:524-546;
    [dremovable]: True for peaks, False for baselines.  An unknown keyword is a TypeError. *)
Definition part_init (dremovable dstatic : V) (ownerlist : list F) (d : list (string * V)) : result part :=
  do o <- get "owner" d;
  match as_int o with
  | None => Err TypeError
  | Some i =>
    do f <- factory_ref i ownerlist;
    if negb (forallb (fun kv => existsb (String.eqb (fst kv)) ["owner"; "pars"; "free"; "removable"; "static_owner"]) d) then Err TypeError else
    match dlookup "pars" d with
    | None => Err TypeError
    | Some pv =>
      match as_list pv with
      | None => Err TypeError
      | Some ps =>
        if negb (List.length ps =? npars f)%nat then Err ValueError else
        do fr <- match dlookup "free" d with
                 | None => Ok (map (fun _ => truth (vint 1)) ps)
                 | Some fv => if is_none fv then Ok (map (fun _ => truth (vint 1)) ps) else match as_list fv with None => Err TypeError | Some l => Ok (map truth l) end
                 end;
        if negb (List.length fr =? npars f)%nat then Err ValueError else
        Ok (mkPart f ps fr (match dlookup "removable" d with Some v => v | None => dremovable end) (match dlookup "static_owner" d with Some v => v | None => dstatic end))
      end
    end
  end.
Definition part_factory (dremovable dstatic : V) (s : string) (ownerlist : list F) : result part :=
  do d <- part_dict (splitlines (strip s)); part_init dremovable dstatic ownerlist d.

(** *** ModelCluster *)
(** The contents written; the evaluator by its class name, 556-559; data rows as written
    with "%g".  [slice_text] is repr of the slice. *)
Record mc := mkMc { mc_funcs : option (list F); mc_eval : option string; mc_slice : string; mc_base : option part; mc_peaks : list part; mc_rows : list string }.
Definition pf_default (m : mc) : result (list F) :=
  match mc_funcs m with None => Err TypeError | Some fs => Ok (map part_owner (mc_peaks m) ++ fs)%list end.
(** set() and safefunctionlist of the functions (C19) *)
Variable safelist : list F -> list F.
Fixpoint indices (l fs : list F) : result (list Z) :=
  match fs with
  | [] => Ok []
  | f :: r => match findex f l with None => Err ValueError | Some i => do t <- indices l r; Ok (Z.of_nat i :: t) end
  end.
Variable show_ints : list Z -> string.                       (* repr of a list of integers *)
Variable eval_ints : string -> result (option (list Z)).     (* eval of it, None for None *)
Variable show_nat : nat -> string.
Fixpoint write_parts (head : string) (l : list F) (ps : list part) : result (list string) :=
  match ps with
  | [] => Ok []
  | p :: r => do ls <- part_lines l p; do t <- write_parts head l r; Ok (head :: ls ++ "" :: t)%list
  end.
Fixpoint write_numbered (head : string) (l fs : list F) (n : nat) : result (list string) :=
  match fs with
  | [] => Ok []
  | f :: r => do ls <- fun_lines l f; do t <- write_numbered head l r (S n); Ok ((head ++ show_nat n)%string :: ls ++ "" :: t)%list
  end.
(** ModelCluster.writestr, 533-607, as its lines (every nested text ends with a line break,
    which gives an empty line); the lists are the keywords. *)
Definition mc_writestr (pfs bfs : option (list F)) (m : mc) : result (list string) :=
  do pl <- match pfs with Some l => Ok l | None => do l <- pf_default m; Ok (safelist l) end;
  do bl <- match bfs with Some l => Ok l | None => match mc_base m with None => Err AttributeError | Some b => Ok (safelist [part_owner b]) end end;
  do l1 <- match mc_funcs m with None => Ok "peak_funcs=None" | Some fs => do i <- indices pl fs; Ok ("peak_funcs=" ++ show_ints i) end;
  let l2 := "ModelEvaluator=" ++ match mc_eval m with None => "None" | Some n => n end in
  let l3 := "slice=" ++ mc_slice m in
  do bf <- match bfs with Some _ => Ok [] | None => do t <- write_numbered "# BaselineFunction " bl bl 0; Ok ("## BaselineFunctions" :: t) end;
  do pf <- match pfs with Some _ => Ok [] | None => do t <- write_numbered "# PeakFunction " pl pl 0; Ok ("## PeakFunctions" :: t) end;
  do bo <- match mc_base m with None => Ok ["None"] | Some b => do ls <- part_lines bl b; Ok (ls ++ [""])%list end;
  do mp <- write_parts "# ModelPeak" pl (mc_peaks m);
  Ok ([l1; l2; l3] ++ bf ++ pf ++ "# BaselineObject" :: bo ++ "## ModelPeaks" :: mp ++ "### start data" :: "#L r y dy" :: mc_rows m)%list.

(** The names that [getattr(sys.modules["diffpy.srmise.modelevaluators"], name)] finds:
    the submodules and what every package has; modelevaluators/__init__.py is empty. *)
Definition package_names : list string :=
  ["aic"; "aicc"; "base"; "__name__"; "__doc__"; "__package__"; "__loader__"; "__spec__"; "__path__"; "__file__"; "__cached__"; "__builtins__"].
Definition package_attr (name : string) : result string := if existsb (String.eqb name) package_names then Ok name else Err AttributeError.
(** ModelCluster.factory, 611-780, on the lines of the text.  A section that is missing
    leaves its variable unbound.  [body]: what follows the evaluator, 719-780 (slice,
    baseline, peaks, data). *)
Definition need {A} (o : option A) : result A := match o with Some a => Ok a | None => Err UnboundLocalError end.
Variable numbered : string -> list string -> list string.    (* re.split at the numbered heads, 689-707: the texts *)
Variable body : list F -> list F -> option (list F) -> string -> list string -> option (list string) -> option (list string) -> list string -> result mc.
Definition cut_section (name : string) (h : list string) : list string * option (list string) :=
  match split_section name h with Some (a, b) => (a, Some b) | None => (h, None) end.
Fixpoint pick (l : list F) (is : list Z) : result (list F) :=
  match is with
  | [] => Ok []
  | i :: r => do f <- pyget l i; do t <- pick l r; Ok (f :: t)
  end.
Definition mc_factory (pfs bfs : option (list F)) (ls : list string) : result mc :=
  do sd <- need (split_section "start data" ls);
  let '(h0, data) := sd in
  let '(h1, peaks) := cut_section "ModelPeaks" h0 in
  let '(h2, base) := cut_section "BaselineObject" h1 in
  let '(h3, pft) := match pfs with Some _ => (h2, None) | None => cut_section "PeakFunctions" h2 end in
  let '(h4, bft) := match bfs with Some _ => (h3, None) | None => cut_section "BaselineFunctions" h3 end in
  do bl <- match bfs with Some l => Ok l | None => do t <- need bft; read_funs (numbered "BaselineFunction" t) [] end;
  do pl <- match pfs with Some l => Ok l | None => do t <- need pft; read_funs (numbered "PeakFunction" t) [] end;
  do f1 <- match field "peak_funcs" h4 with None => Err AttributeError | Some t => Ok t end;
  do oi <- eval_ints (strip f1);
  do fs <- match oi with None => Ok None | Some is => do l <- pick pl is; Ok (Some l) end;
  do en <- match field "ModelEvaluator" h4 with None => Err AttributeError | Some t => package_attr (strip t) end;
  body pl bl fs en h4 base peaks data.

(** *** PeakExtraction.readstr, PeakStability.load *)
(** An object is its attributes; None is Python's None. *)
Definition obj : Type := string -> option V.
(** PeakExtraction.clear, peakextraction.py:95-118, and PDFPeakExtraction.clear,
    pdfpeakextraction.py:102-118 *)
Definition cleared_names : list string :=
  ["x"; "y"; "dx"; "dy"; "effective_dy"; "cres"; "pf"; "baseline"; "error_method"; "initial_peaks"; "rng"; "extracted"; "extraction_type";
   "filename"; "nyquist"; "qmax"; "qmax_reportedbypdf"; "qmax_fromdata"; "scale"; "supersample"].
Definition clear (o : obj) : obj := fun k => if existsb (String.eqb k) cleared_names then None else o k.
(** peakextraction.py:330-394, up to [re.search(r"\edy\b", ...)], which is not a regular
    expression (bad escape \e): re.error, here GenericException. *)
Definition readstr (o : obj) (ls : list string) : obj * result unit :=
  let o1 := clear o in
  match split_section "Results" ls with
  | None => (o1, Err UnboundLocalError)            (* header *)
  | Some (h, _) =>
    match split_section "start data" h with
    | None => (o1, Err UnboundLocalError)          (* start_data_info *)
    | Some _ => (o1, Err GenericException)
    end
  end.
(** read, 306-328: the file is read as bytes, the first pattern is a str *)
Definition read (o : obj) (content : list string) : obj * result unit := (clear o, Err TypeError).
(** PeakStability: results, ppe.  load, peakstability.py:43-69: the results are replaced
    first. *)
Record stability {R} := mkSt { st_results : list R; st_ppe : obj }.
Arguments stability : clear implicits.
Definition load {R} (s : stability R) (results : list R) (ppestr : list string) (fresh : obj) : stability R * result unit :=
  let '(o, r) := readstr fresh ppestr in (mkSt R results o, r).

(** *** FromSequence.readxy *)
(** fromsequence.py:258-277: the text after the first character of the first line that does
    not start with #, [^#] matching any other character, also a line break.  If there is
    none the whole text is used. *)
Fixpoint after_first (bol : bool) (s : string) : option string :=
  match s with
  | "" => None
  | String c r => if (bol && negb (Ascii.eqb c "#"))%bool then Some r else after_first (Ascii.eqb c LF) r
  end.
(** bytes.split(b"\n") *)
Fixpoint split_nl (cur : string) (s : string) : list string :=
  match s with
  | "" => [cur]
  | String c r => if Ascii.eqb c LF then cur :: split_nl "" r else split_nl (cur ++ String c "") r
  end.
(** bytes.split(): the words *)
Fixpoint words (cur : string) (s : string) : list string :=
  match s with
  | "" => match cur with "" => [] | _ => [cur] end
  | String c r => if isblank c then match cur with "" => words "" r | _ => cur :: words "" r end else words (cur ++ String c "") r
  end.
Context {N : Type}.
Variable float : string -> result N.
Fixpoint rows (ls : list string) : result (list (N * N)) :=
  match ls with
  | [] => Ok []
  | l :: r =>
    match words "" l with
    | a :: b :: _ => match float a, float b with Ok x, Ok y => do t <- rows r; Ok ((x, y) :: t) | _, _ => Err DataFormatError end
    | [a] => Err DataFormatError
    | [] => Err DataFormatError
    end
  end.
Definition readxy (content : string) : result (list (N * N)) :=
  rows (split_nl "" (match after_first true content with Some r => strip r | None => content end)).
End Serial.

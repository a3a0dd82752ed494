(** Model of the text of a peak extraction: PeakExtraction.writestr (peakextraction.py:561-706)
    with PDFPeakExtraction.writemetadata, and the steps of PeakExtraction.readstr (330-544).

    Characters are 8-bit; repr and eval of Python values, "%g" and float() are parameters.
    Functions, parts and clusters are written as in Serial.v.  A nested text ends with a line
    break, which gives an empty line. *)
From Coq Require Import String Ascii DecimalString.
From Verif Require Import Prelude Functions Tracer Serial Summary.
Open Scope string_scope.

(** repr of an index; re.match(r"^\d+$", s) with int(s) *)
Definition show_index (n : nat) : string := NilZero.string_of_uint (Nat.to_uint n).
Definition as_index (s : string) : option nat := match NilZero.uint_of_string s with Some d => Some (Nat.of_uint d) | None => None end.

Section Text.
Context {V F N : Type}.
Variable repr : V -> string.
Variable eval : string -> result V.
Variables (vnone : V) (vint : Z -> V) (vstr : string -> V).
Variable as_int : V -> option Z.
Variable is_none : V -> bool.
Variable fclass fmodule : F -> string.
Variable fbase : F -> option F.
Variable fmeta : F -> list (string * V).
Variable ftext : V -> string.
Variable feq : F -> F -> bool.
Variable construct : V -> V -> option F -> list (string * V) -> result F.
Variable npars : F -> nat.
Variable as_list : V -> option (list V).
Variable truth : V -> V.
(** list(set(...)) and safefunctionlist (C19) *)
Variable safelist : list F -> list F.
Variable show_ints : list Z -> string.
Variable eval_ints : string -> result (option (list Z)).
(** "%g" and float() *)
Variable gen : N -> string.
Variable parse : string -> result N.
Variables (vtrue vfalse : V).
Notation part := (@part V F).
Notation mc := (@mc V F).
Notation part_lines := (part_lines repr vint feq).
Notation write_parts := (write_parts repr vint feq).
Notation write_numbered := (write_numbered repr vnone vint vstr fclass fmodule fbase fmeta ftext feq show_index).
Notation mc_writestr := (mc_writestr repr vnone vint vstr fclass fmodule fbase fmeta ftext feq safelist show_ints show_index).

(** self.baseline: None, a function, or a part *)
Inductive base_value := BvNone | BvFun (f : F) | BvPart (p : part).
(** The attributes that are saved; [e_more]: those of PDFPeakExtraction, by name *)
Record extraction := mkE { e_pf : option (list F); e_initial : option (list part); e_baseline : base_value; e_cres : option N;
  e_method : option string; e_rng : V; e_x : option (list N); e_y : option (list N); e_dx : option (list N); e_dy : option (list N); e_edy : option (list N);
  e_type : V; e_cluster : option mc; e_more : string -> V }.

Definition optl {A} (o : option (list A)) : list A := match o with Some l => l | None => [] end.
(** 589-607: the functions, peak functions first; extend(None) is a TypeError *)
Definition all_pf (e : extraction) : result (list F) :=
  do x <- match e_cluster e with
          | None => Ok []
          | Some m => match mc_funcs m with None => Err TypeError | Some fs => Ok (fs ++ map part_owner (mc_peaks m))%list end
          end;
  Ok (optl (e_pf e) ++ map part_owner (optl (e_initial e)) ++ x)%list.
Definition all_bf (e : extraction) : list F :=
  (match e_baseline e with BvNone => [] | BvFun f => [f] | BvPart p => [part_owner p] end ++
   match e_cluster e with Some m => match mc_base m with Some b => [part_owner b] | None => [] end | None => [] end)%list.
(** 662-679: the columns, in order; the number of lines is the length of the last one *)
Definition columns (e : extraction) : list (string * option (list N)) :=
  [("x", e_x e); ("y", e_y e); ("dx", e_dx e); ("dy", e_dy e); ("edy", e_edy e)].
Fixpoint present (l : list (string * option (list N))) : list (string * list N) :=
  match l with
  | [] => []
  | (k, Some a) :: r => (k, a) :: present r
  | (_, None) :: r => present r
  end.
Definition numlines (l : list (string * list N)) : nat := List.length (snd (last l ("", []))).
(** 680-692 *)
Fixpoint row (i : nat) (l : list (string * list N)) : result (list string) :=
  match l with
  | [] => Ok []
  | (_, a) :: r => match nth_error a i with None => Err IndexError | Some v => do t <- row i r; Ok (gen v :: t) end
  end.
Fixpoint data_rows (is : list nat) (l : list (string * list N)) : result (list string) :=
  match is with
  | [] => Ok []
  | i :: r => do w <- row i l; do t <- data_rows r l; Ok (join " " w :: t)
  end.
(** 561-704; [metadata]: None for the base class, whose writemetadata returns None (708-710),
    so that "\n".join(lines) raises TypeError (703).  [time], [user], [version]: 576-582. *)
Definition writelines (metadata : option ((string -> V) -> list string)) (time user version : string) (e : extraction) : result (list string) :=
  do pfs <- all_pf e;
  let safepf := safelist pfs in
  let safebf := safelist (all_bf e) in
  do bf <- write_numbered "# BaselineFunction " safebf safebf 0;
  do pf <- write_numbered "# PeakFunction " safepf safepf 0;
  do bo <- match e_baseline e with
           | BvNone => Ok ["None"]
           | BvFun f => match findex feq f safebf with Some i => Ok [show_index i] | None => Err AttributeError end
           | BvPart p => do ls <- part_lines safebf p; Ok (ls ++ [""])%list
           end;
  do ip <- match e_initial e with None => Ok ["None"] | Some ps => write_parts "# InitialPeak" safepf ps end;
  do pi <- match e_pf e with None => Ok "pf=None" | Some fs => do i <- indices feq safepf fs; Ok ("pf=" ++ show_ints i) end;
  do cr <- match e_cres e with None => Err TypeError | Some c => Ok ("cres=" ++ gen c) end;
  let cols := present (columns e) in
  do rows <- data_rows (seq 0 (numlines cols)) cols;
  do cl <- match e_cluster e with None => Ok ["None"] | Some m => mc_writestr (Some safepf) (Some safebf) m end;
  do md <- match metadata with None => Err TypeError | Some w => Ok (w (e_more e)) end;
  let l1 := "History written: " ++ time in let l2 := "produced by " ++ user in let l3 := "diffpy.srmise version " ++ version in
  let l4 := "ModelEvaluator=" ++ match e_method e with None => "None" | Some n => n end in
  let l5 := "Range=" ++ repr (e_rng e) in
  let l6 := "extraction_type=" ++ repr (e_type e) in
  Ok (([l1; l2; l3; "##### PDF Peak Extraction"] ++ "## BaselineFunctions" :: bf ++ "## PeakFunctions" :: pf ++ "# BaselineObject" :: bo ++ "## InitialPeaks" :: ip ++
      "# SrMiseMetadata" :: pi :: cr :: l4 :: l5 :: "# Metadata" :: md ++ "##### start data" :: join " " ("#L" :: map fst cols) :: rows ++
      "##### Results" :: l6 :: "### ModelCluster" :: cl)%list).
Definition writestr (metadata : option ((string -> V) -> list string)) (time user version : string) (e : extraction) : result string :=
  do ls <- writelines metadata time user version e; Ok (join newline ls ++ newline).
(** The lines of PDFPeakExtraction.writemetadata, pdfpeakextraction.py:640-652 *)
Definition pdf_metadata (o : string -> V) : list string := (map (fun k => (k ++ "=" ++ repr (o k))%string) meta_names ++ [""])%list.

(** *** readstr *)
(** re.split with the pattern of a head at the start of a line; comment lines right after a
    head belong to it.  (A head right after another one would, too; no writer produces that.) *)
Fixpoint pieces (head : string -> bool) (ls : list string) : list string * list (list string) :=
  match ls with
  | [] => ([], [])
  | l :: r => let '(b, ps) := pieces head r in if head l then ([], skip_comments b :: ps) else (l :: b, ps)
  end.
(** the text of a piece goes up to the next head *)
Fixpoint piece_texts (ps : list (list string)) : list string :=
  match ps with
  | [] => []
  | [p] => [join newline p]
  | p :: r => (join newline p ++ newline) :: piece_texts r
  end.
Definition isdigit (c : ascii) : bool := let n := nat_of_ascii c in ((48 <=? n) && (n <=? 57))%nat.
(** ^#+ name \d+ *)
Definition num_head (name l : string) : bool :=
  match after_hashes l with
  | Some r => match after_prefix (" " ++ name ++ " ") r with Some (String c _) => isdigit c | _ => false end
  | None => false
  end.
(** .strip() of a section: blank lines at its ends (lines written do not end with blanks) *)
Fixpoint drop_blank_lines (ls : list string) : list string := match ls with "" :: r => drop_blank_lines r | _ => ls end.
Definition strip_lines (ls : list string) : list string := drop_blank_lines_at_end (drop_blank_lines ls).
(** 366-371: the line that names the columns, else all comment lines; \bx\b etc. as words *)
Fixpoint comments_first (ls : list string) : list string :=
  match ls with
  | String c l :: r => if Ascii.eqb c "#" then String c l :: comments_first r else []
  | _ => []
  end.
Definition is_label (l : string) : bool := match after_hashes l with Some (String c _) => Ascii.eqb c "L" | _ => false end.
Definition info (data : list string) : list string :=
  match find is_label (comments_first data) with Some l => words "" l | None => flat_map (words "") (comments_first data) end.
(** 498-519: zip(arrays, line.split()); a different number of values is not noticed (514) *)
Fixpoint append_row (arrays : list (string * list N)) (ws : list string) : result (list (string * list N)) :=
  match arrays, ws with
  | (k, a) :: r, w :: ws' => match parse w with Err _ => Err DataFormatError | Ok v => do t <- append_row r ws'; Ok ((k, a ++ [v])%list :: t) end
  | _, _ => Ok arrays
  end.
Fixpoint append_rows (arrays : list (string * list N)) (ls : list string) : result (list (string * list N)) :=
  match ls with
  | [] => Ok arrays
  | l :: r => do a <- append_row arrays (words "" l); append_rows a r
  end.
Fixpoint alookup (k : string) (l : list (string * list N)) : option (list N) :=
  match l with [] => None | (k', a) :: r => if String.eqb k k' then Some a else alookup k r end.
Fixpoint parts_of (l : list F) (ts : list string) : result (list part) :=
  match ts with
  | [] => Ok []
  | t :: r => do p <- part_factory eval vint as_int is_none npars as_list truth vtrue vfalse t l; do ps <- parts_of l r; Ok (p :: ps)
  end.
(** 330-544.  [edy]: the search of 388 in the words of the label line; [evaluator]: 466-469;
    [cluster]: ModelCluster.factory with the two lists of functions.  The object is returned
    complete; what an exception leaves behind is in Serial.v. *)
Definition readstr (edy : list string -> result bool) (evaluator : string -> result string) (cluster : list F -> list F -> list string -> result mc)
    (o : string -> V) (s : string) : result extraction :=
  let ls := split_nl "" s in
  do rs <- need (split_section "Results" ls);
  let '(hdr, results) := rs in
  do sd <- need (split_section "start data" hdr);
  let '(h0, data) := sd in
  let inf := info data in
  do hasedy <- edy inf;
  let '(h1, metadata) := cut_section "Metadata" h0 in
  let '(h2, smeta) := cut_section "SrMiseMetadata" h1 in
  let '(h3, initial) := cut_section "InitialPeaks" h2 in
  let '(h4, bobj) := cut_section "BaselineObject" h3 in
  let '(h5, pft) := cut_section "PeakFunctions" h4 in
  let '(h6, bft) := cut_section "BaselineFunctions" h5 in
  do bt <- need bft;
  do safebf <- read_funs eval as_int is_none construct (piece_texts (snd (pieces (num_head "BaselineFunction") (strip_lines bt)))) [];
  do pt <- need pft;
  do safepf <- read_funs eval as_int is_none construct (piece_texts (snd (pieces (num_head "PeakFunction") (strip_lines pt)))) [];
  do bo <- need bobj;
  let b := strip_lines (skip_comments bo) in
  do baseline <- match b with
                 | [t] => if String.eqb t "None" then Ok BvNone else
                          match as_index t with
                          | Some i => match nth_error safebf i with Some f => Ok (BvFun f) | None => Err IndexError end
                          | None => do p <- part_factory eval vint as_int is_none npars as_list truth vfalse vfalse t safebf; Ok (BvPart p)
                          end
                 | _ => do p <- part_factory eval vint as_int is_none npars as_list truth vfalse vfalse (join newline b) safebf; Ok (BvPart p)
                 end;
  do it <- need initial;
  do initial_peaks <- match strip_lines it with
                      | ["None"] => Ok None
                      | l => do ps <- parts_of safepf (piece_texts (snd (pieces (is_section "InitialPeak") l))); Ok (Some ps)
                      end;
  do sm <- need smeta;
  do t1 <- match field "pf" sm with None => Err AttributeError | Some t => Ok t end;
  do oi <- eval_ints (strip t1);
  do pf <- match oi with None => Ok None | Some is => do l <- pick safepf is; Ok (Some l) end;
  do t2 <- match field "cres" sm with None => Err AttributeError | Some t => Ok t end;
  do cres <- parse (strip t2);
  do t3 <- match field "ModelEvaluator" sm with None => Err AttributeError | Some t => Ok t end;
  do method <- evaluator (strip t3);
  do t4 <- match field "Range" sm with None => Err AttributeError | Some t => Ok t end;
  do rng <- eval (strip t4);
  do mt <- need metadata;
  let '(o', r) := read_fields eval meta_names mt o in
  do _ <- r;
  let names := (filter (fun k => existsb (String.eqb k) inf) ["x"; "y"; "dx"; "dy"] ++ (if hasedy : bool then ["edy"] else []))%list in
  do arrays <- append_rows (map (fun k => (k, [])) names) (skip_comments data);
  let '(r0, cl) := cut_section "ModelCluster" results in
  do ty <- match field "extraction_type" r0 with None => Err DataFormatError | Some t => eval (strip t) end;
  do ct <- need cl;
  do extracted <- match strip_lines ct with
                  | ["None"] => Ok None
                  | l => do m <- cluster safepf safebf l; Ok (Some m)
                  end;
  Ok (mkE pf initial_peaks baseline (Some cres) (Some method) rng (alookup "x" arrays) (alookup "y" arrays) (alookup "dx" arrays) (alookup "dy" arrays) (alookup "edy" arrays) ty extracted o').
End Text.

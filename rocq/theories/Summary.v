(** Model of PDFPeakExtraction.writemetadata/readmetadata (pdfpeakextraction.py:640-720) and of
    the contents of the summary written by writepwastr (743-928).

    Characters are 8-bit; [repr] and [eval] of Python values are parameters. *)
From Coq Require Import String Ascii.
From Verif Require Import Prelude Functions Tracer Serial.
Open Scope string_scope.

Section Metadata.
Context {V : Type}.
Variable repr : V -> string.
Variable eval : string -> result V.
(** 643-649 in order; the same order in 666-720 *)
Definition meta_names : list string := ["filename"; "nyquist"; "qmax"; "qmax_reportedbypdf"; "qmax_fromdata"; "scale"; "supersample"].
(** writemetadata, 640-652; an object is its attributes *)
Definition writemetadata (o : string -> V) : string :=
  join newline (map (fun k => k ++ "=" ++ repr (o k)) meta_names) ++ newline.
Definition setattr (o : string -> V) (k : string) (v : V) : string -> V := fun k' => if String.eqb k' k then v else o k'.
(** readmetadata, 654-720: the search with re.M finds the first line (ended by "\n") that
    starts with the name and an equals sign; each attribute is set before the next is read. *)
Fixpoint read_fields (ks : list string) (ls : list string) (o : string -> V) : (string -> V) * result unit :=
  match ks with
  | [] => (o, Ok tt)
  | k :: r =>
    match field k ls with
    | None => (o, Err DataFormatError)
    | Some t => match eval (strip t) with Err e => (o, Err e) | Ok v => read_fields r ls (setattr o k v) end
    end
  end.
Definition readmetadata (o : string -> V) (metastr : string) : (string -> V) * result unit := read_fields meta_names (split_nl "" metastr) o.
End Metadata.

Section Summary.
(** Function objects are numbered as in Functions.v; [P] are parameter vectors, [T] values
    in the text. *)
Variable base : nat -> option nat.
Variable depth : nat.
Context {P T : Type}.
(** set() of the functions, listed in any order, 861-862 *)
Variable list_of_set : list nat -> list nat.
(** transform_parameters(p, "internal", "pwa") and the entries of position, width and area, 918-922 *)
Variable to_pwa : nat -> P -> result (T * T * T).
(** parameterdict of a baseline function in dictionary order, and the values of a vector *)
Variable pardict : nat -> list (string * nat).
Variable values : P -> list T.

(** self.baseline: None, a function, or a part with its number of free parameters *)
Inductive base_var := BNone | BFunction (f : nat) | BPart (f : nat) (nfree : nat).
Record extracted := mkEx { x_funcs : list nat; x_peaks : list (nat * P); x_baseline : option (nat * P); x_nfree : nat; x_npoints : nat }.
Record input := mkIn { i_pf : option (list nat); i_initial : option (list nat); i_baseline : base_var; i_extracted : option extracted }.

(** A line of a function table: index, function, index of its base *)
Definition fline : Type := nat * nat * option nat.
(** The contents: free parameters of the peaks and of the baseline, number of points (825-834);
    the tables of functions (866-875, 899-907); the baseline with labels, values and index, or
    "(no parameters)" (883-897); the peaks (916-924). *)
Record summary := mkSum { s_nfree : nat; s_bfree : nat; s_npoints : nat; s_bf : list fline;
  s_baseline : option (option (list string * list T) * nat); s_pf : list fline; s_peaks : list (T * T * T * nat) }.

(** labels in the order of the parameter indices: argsort, 888-890 *)
Fixpoint linsert (a : string * nat) (l : list (string * nat)) : list (string * nat) :=
  match l with [] => [a] | b :: r => if (snd a <=? snd b)%nat then a :: b :: r else b :: linsert a r end.
Definition labels (d : list (string * nat)) : list string := map fst (fold_right linsert [] d).

(** 868-875, 901-907 *)
Fixpoint ftable (all : list nat) (i : nat) (l : list nat) : result (list fline) :=
  match l with
  | [] => Ok []
  | f :: r =>
    do b <- match base f with None => Ok None | Some g => match index_of g all with None => Err ValueError | Some j => Ok (Some j) end end;
    do t <- ftable all (S i) r; Ok ((i, f, b) :: t)
  end.
(** 916-924 *)
Fixpoint plines (all : list nat) (ps : list (nat * P)) : result (list (T * T * T * nat)) :=
  match ps with
  | [] => Ok []
  | (f, p) :: r =>
    do v <- to_pwa f p;
    do j <- match index_of f all with None => Err ValueError | Some j => Ok j end;
    do t <- plines all r; Ok ((v, j) :: t)
  end.
Definition opt {A} (o : option (list A)) : list A := match o with Some l => l | None => [] end.
Definition safe (l : list nat) : result (list nat) := match safefunctionlist base depth (list_of_set l) with Some s => Ok s | None => Err GenericException end.
(** writepwastr, 758-928.  SrMiseError and RecursionError are GenericException.  A baseline
    that is a function has an integer npars, which cannot be called (829).  Header, comments
    and metadata lines (770-822) are left out. *)
Definition writepwa (s : input) : result summary :=
  match i_extracted s with
  | None => Err GenericException
  | Some e =>
    do bfree <- match i_baseline s with BNone => Ok 0%nat | BFunction _ => Err TypeError | BPart _ n => Ok n end;
    let allpf := (opt (i_pf s) ++ opt (i_initial s) ++ x_funcs e ++ map fst (x_peaks e))%list in
    let allbf := (match i_baseline s with BNone => [] | BFunction f => [f] | BPart f _ => [f] end ++ match x_baseline e with None => [] | Some (f, _) => [f] end)%list in
    do safepf <- safe allpf;
    do safebf <- safe allbf;
    do bf <- ftable safebf 0 safebf;
    do bl <- match x_baseline e with
             | None => Ok None
             | Some (f, p) =>
               do j <- match index_of f safebf with None => Err ValueError | Some j => Ok j end;
               Ok (Some (match pardict f with [] => None | d => Some (labels d, values p) end, j))
             end;
    do pf <- ftable safepf 0 safepf;
    do pk <- plines safepf (x_peaks e);
    Ok (mkSum (x_nfree e) bfree (x_npoints e) bf bl pf pk)
  end.
End Summary.

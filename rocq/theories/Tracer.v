(** Model of TracePeaks (srmiselog.py:156-353): the counters, the traces made by emit and
    their text form.

    The filter is an arbitrary function of the counters at the call (177: compiled
    expression; it may also look at the arguments, so emit takes its value).  Peaks are
    mutable objects: they live in a heap, models are lists of addresses. *)
From Coq Require Import String Ascii DecimalString.
From Verif Require Import Prelude ModelCluster.
Open Scope Z_scope.

(** *** The counters *)
(** call, counter, recursion; the traces kept in memory (self.trace) *)
Record tracer {T : Type} := mkTr { t_call : Z; t_counter : Z; t_recursion : Z; t_trace : list T }.
Arguments tracer : clear implicits.
Arguments mkTr {T}. Arguments t_call {T}. Arguments t_counter {T}. Arguments t_recursion {T}. Arguments t_trace {T}.

Section Counters.
Context {T : Type}.
(** reset_trace, 340-344: clears self.stored, which nothing reads; self.trace stays. *)
Definition reset_trace (s : tracer T) : tracer T := mkTr 0 0 0 (t_trace s).
(** __init__, 159-177 *)
Definition new_tracer : tracer T := reset_trace (mkTr 0 0 0 []).
(** pushr, popr, 318-326 *)
Definition pushr (s : tracer T) : tracer T := mkTr (t_call s) (t_counter s) (t_recursion s + 1) (t_trace s).
Definition popr (s : tracer T) : tracer T := mkTr (t_call s) (t_counter s) (t_recursion s - 1) (t_trace s).
(** pushc, popc, 328-338 *)
Definition pushc (s : tracer T) : tracer T :=
  let s1 := if t_call s =? 0 then reset_trace s else s in mkTr (t_call s1 + 1) (t_counter s1) (t_recursion s1) (t_trace s1).
Definition popc (s : tracer T) : tracer T := mkTr (t_call s - 1) (t_counter s) (t_recursion s) (t_trace s).
(** emit, 179-193, for a tracer with store=True; [pass] is the value of the filter and
    [make] is maketrace. *)
Definition emit (s : tracer T) (pass : bool) (make : Z -> Z -> T) : tracer T :=
  if pass then mkTr (t_call s) (t_counter s + 1) (t_recursion s) (t_trace s ++ [make (t_recursion s) (t_counter s)]) else s.

Inductive event := PushC | PopC | PushR | PopR | Emit (pass : bool) (make : Z -> Z -> T).
Definition event_step (s : tracer T) (e : event) : tracer T :=
  match e with
  | PushC => pushc s | PopC => popc s | PushR => pushr s | PopR => popr s
  | Emit p m => emit s p m
  end.
Definition events (s : tracer T) (l : list event) : tracer T := fold_left event_step l s.
End Counters.
Arguments event : clear implicits.

(** *** maketrace, 195-214 *)
Section MakeTrace.
Context {P B Q : Type}.
(** what the cluster code needs of a peak object at a given time *)
Definition heap := list P.
Variable w : heap -> world nat B Q.
Record trace := mkTrace { tr_mc : cluster nat B; tr_clusters : list (nat * nat); tr_recursion : Z; tr_counter : Z }.
(** The copy of the first model is made of new peak objects; the peaks of the other models
    are inserted themselves (207-208). *)
Definition copy_peaks (h : heap) (m : list nat) : heap * list nat :=
  (h ++ flat_map (fun a => match nth_error h a with Some p => [p] | None => [] end) m, seq (length h) (length m)).
Definition maketrace (h : heap) (args : list (cluster nat B)) (recursion counter : Z) : heap * result trace :=
  match args with
  | [] => (h, Err IndexError)
  | a :: rest =>
    let '(h1, m) := copy_peaks h (c_model a) in
    match copy_cluster (w h1) (set_model a m) with
    | Err e => (h1, Err e)
    | Ok c =>
      match change_slice_from (w h1) None c 0 (length (adat (c_r c))) with
      | (_, Err e) => (h1, Err e)
      | (c1, Ok _) =>
        let join acc b := match acc with
                          | Err e => Err e
                          | Ok m => match replacepeaks (w h1) m (c_model b) (Some 0) (Some 0) with (m', Ok _) => Ok m' | (_, Err e) => Err e end
                          end in
        match fold_left join rest (Ok (c_model c1)) with
        | Err e => (h1, Err e)
        | Ok m' => (h1, Ok (mkTrace (set_model c1 m') (map (fun c => (c_start c, c_stop c)) args) recursion counter))
        end
      end
    end
  end.
End MakeTrace.
Arguments trace : clear implicits.

(** *** Text form *)
Section Text.
Open Scope string_scope.
Context {MC CL : Type}.
(** ModelCluster.writestr as its lines, ModelCluster.factory on them, repr and eval of the
    list of slices *)
Variable mc_lines : MC -> list string.
Variable mc_factory : list string -> result MC.
Variable show_clusters : CL -> string.
Variable eval_clusters : string -> result CL.
(** "%i" and eval of a decimal integer *)
Definition show_int (z : Z) : string := NilZero.string_of_int (Z.to_int z).
Definition eval_int (s : string) : result Z :=
  match NilZero.int_of_string s with Some d => Ok (Z.of_int d) | None => Err GenericException end.
Record ttrace := mkT { x_mc : MC; x_clusters : CL; x_recursion : Z; x_counter : Z }.
(** writestr, 216-226; a text is its lines. *)
Definition writestr (t : ttrace) : list string :=
  (["### Trace"; append "counter=" (show_int (x_counter t)); append "recursion=" (show_int (x_recursion t));
   append "clusters=" (show_clusters (x_clusters t)); "### ModelCluster"] ++ mc_lines (x_mc t))%list.
(** ^#+ ModelCluster at the start of a line *)
Fixpoint after_prefix (p s : string) : option string :=
  match p, s with
  | EmptyString, _ => Some s
  | String a p', String b s' => if Ascii.eqb a b then after_prefix p' s' else None
  | _, _ => None
  end.
Fixpoint after_hashes (s : string) : option string :=
  match s with
  | String c r => if Ascii.eqb c "#" then match after_hashes r with Some x => Some x | None => Some r end else None
  | EmptyString => None
  end.
Definition is_section (name l : string) : bool :=
  match after_hashes l with Some r => match after_prefix (" " ++ name) r with Some _ => true | None => false end | None => false end.
(** 274-281: the lines before and after the section line; comment lines right after it are
    skipped by the same pattern. *)
Fixpoint split_section (name : string) (ls : list string) : option (list string * list string) :=
  match ls with
  | [] => None
  | l :: r => if is_section name l then Some ([], r)
              else match split_section name r with Some (a, b) => Some (l :: a, b) | None => None end
  end.
Fixpoint skip_comments (ls : list string) : list string :=
  match ls with
  | String c _ :: r => if Ascii.eqb c "#" then skip_comments r else ls
  | _ => ls
  end.
(** The value of the first line that starts with the field name and an equals sign. *)
Fixpoint field (name : string) (ls : list string) : option string :=
  match ls with
  | [] => None
  | l :: r => match after_prefix (name ++ "=") l with Some v => Some v | None => field name r end
  end.
(** readstr, 260-316: the parsed recursion and counter are thrown away (298-311) and the
    tracer's own values are returned. *)
Definition readstr {T} (s : tracer T) (ls : list string) : result ttrace :=
  match split_section "ModelCluster" ls with
  | None => Err DataFormatError
  | Some (header, body) =>
    do mc <- mc_factory (skip_comments body);
    match field "clusters" header with
    | None => Err DataFormatError
    | Some v =>
      do cl <- eval_clusters v;
      match field "recursion" header with
      | None => Err DataFormatError
      | Some v => do _ <- eval_int v;
        match field "counter" header with
        | None => Err DataFormatError
        | Some v => do _ <- eval_int v; Ok (mkT mc cl (t_recursion s) (t_counter s))
        end
      end
    end
  end.
(** read, 236-258: the file is opened in binary mode, and re.search of a str pattern in
    bytes is a TypeError (273), which is not the exception caught at 250. *)
Inductive pystr := Str (lines : list string) | Bytes (lines : list string).
Definition readstr_any {T} (s : tracer T) (d : pystr) : result ttrace :=
  match d with Str ls => readstr s ls | Bytes _ => Err TypeError end.
Definition read {T} (s : tracer T) (content : list string) : result ttrace :=
  match readstr_any s (Bytes content) with Err DataFormatError => Err FileError | r => r end.
End Text.

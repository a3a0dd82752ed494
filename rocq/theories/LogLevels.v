(** Model of the logging settings, srmiselog.py:46-150 (addfilelog, setfilelevel, setlevel,
    liveplotting), with the parts of Python's logging package they use.

    Formats, handlers added elsewhere and propagation to the root logger's handlers are left
    out; the root logger's level is a parameter.  SrMiseLogError is GenericException. *)
From Coq Require Import String.
From Verif Require Import Prelude.
Open Scope Z_scope.

(** What is given as level *)
Inductive lvl := LInt (n : Z) | LName (s : string) | LOther.
(** LEVELS, 51-57 *)
Definition srmise_levels : list (string * Z) := [("debug", 10); ("info", 20); ("warning", 30); ("error", 40); ("critical", 50)]%string.
Definition lookup (t : list (string * Z)) (s : string) : option Z := option_map snd (find (fun kv => String.eqb (fst kv) s) t).
(** LEVELS.get(level, level), 104, 121 *)
Definition mapped (l : lvl) : lvl := match l with LName s => match lookup srmise_levels s with Some n => LInt n | None => l end | _ => l end.
(** The names logging itself knows, and logging._checkLevel as used by setLevel *)
Definition logging_levels : list (string * Z) :=
  [("CRITICAL", 50); ("FATAL", 50); ("ERROR", 40); ("WARN", 30); ("WARNING", 30); ("INFO", 20); ("DEBUG", 10); ("NOTSET", 0)]%string.
Definition check_level (l : lvl) : result Z :=
  match l with LInt n => Ok n | LName s => match lookup logging_levels s with Some n => Ok n | None => Err ValueError end | LOther => Err TypeError end.

(** The logger's level, the console handler's, the file handlers made so far (file and level),
    those attached to the logger, and which one [fh] is *)
Record log := mkLog { g_level : Z; g_console : Z; g_handlers : list (string * Z); g_attached : list nat; g_fh : option nat }.
(** The state after import, 60-71 *)
Definition start : log := mkLog 20 20 [] [] None.

Section Root.
Variable root : Z.   (* level of the root logger; Python's default is WARNING = 30 *)
(** Logger.getEffectiveLevel: the first ancestor with a level *)
Definition effective (s : log) : Z := if g_level s =? 0 then root else g_level s.

(** addfilelog, 78-92; [opened]: FileHandler(filename) can open the file.  FileNotFoundError
    etc. are FileError. *)
Definition addfilelog (s : log) (file : string) (opened : bool) (level : lvl) : log * result unit :=
  if negb opened then (s, Err FileError) else
  let k := length (g_handlers s) in
  let s1 := mkLog (g_level s) (g_console s) (g_handlers s ++ [(file, 0)]) (g_attached s) (Some k) in
  match check_level level with
  | Err e => (s1, Err e)
  | Ok n => (mkLog (g_level s) (g_console s) (g_handlers s ++ [(file, n)]) (g_attached s ++ [k]) (Some k), Ok tt)
  end.

(** [if level < logger.getEffectiveLevel(): logger.setLevel(level)], 106-107, 123-124: a name that
    logging knows but LEVELS does not is still a text here *)
Definition lower (s : log) (l : lvl) (n : Z) : log * result unit :=
  match l with
  | LInt _ => (if n <? effective s then mkLog n (g_console s) (g_handlers s) (g_attached s) (g_fh s) else s, Ok tt)
  | _ => (s, Err TypeError)
  end.
(** setfilelevel, 95-110 *)
Definition set_handler (hs : list (string * Z)) (k : nat) (n : Z) : list (string * Z) :=
  map (fun ih => if (fst ih =? k)%nat then (fst (snd ih), n) else snd ih) (combine (seq 0 (length hs)) hs).
Definition setfilelevel (s : log) (level : lvl) : log * result unit :=
  match g_fh s with
  | None => (s, Err GenericException)
  | Some k =>
    let l := mapped level in
    match check_level l with
    | Err e => (s, Err e)
    | Ok n => lower (mkLog (g_level s) (g_console s) (set_handler (g_handlers s) k n) (g_attached s) (g_fh s)) l n
    end
  end.
(** setlevel, 113-124 *)
Definition setlevel (s : log) (level : lvl) : log * result unit :=
  let l := mapped level in
  match check_level l with
  | Err e => (s, Err e)
  | Ok n => lower (mkLog (g_level s) n (g_handlers s) (g_attached s) (g_fh s)) l n
  end.

(** Where a message of level [m] goes: Logger.isEnabledFor, Logger.callHandlers *)
Definition on_console (s : log) (m : Z) : bool := (effective s <=? m) && (g_console s <=? m).
Definition in_files (s : log) (m : Z) : list string :=
  flat_map (fun k => match nth_error (g_handlers s) k with
                     | Some (f, n) => if (effective s <=? m) && (n <=? m) then [f] else []
                     | None => [] end) (g_attached s).
End Root.

(** A value given for a switch; only the objects True and False are accepted *)
Inductive switch := SwBool (b : bool) | SwOther.
(** liveplotting, 127-150; the state is (liveplots, wait) *)
Definition liveplotting (s : bool * bool) (lp w : switch) : (bool * bool) * result unit :=
  match lp with
  | SwOther => (s, Err ValueError)
  | SwBool b => match w with SwOther => ((b, snd s), Err ValueError) | SwBool c => ((b, c), Ok tt) end
  end.

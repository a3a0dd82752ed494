(** Model of the methods that write files, with the states of the disk in which the program
    may be interrupted: PDFDataSet.write and read (pdfdataset.py:194-217, 347-363),
    PeakExtraction.write (peakextraction.py:546-559), PDFPeakExtraction.writepwa
    (pdfpeakextraction.py:722-742), TracePeaks.write and emit (srmiselog.py:179-193, 228-234),
    PeakStability.save (peakstability.py:71-99), and the end of MultimodelSelection.makeaics
    with loadaics (multimodelselection.py:132-182).

    A file is a list of bytes; text is ASCII.  What write() was given reaches the disk at any
    later time, in order and in pieces of any size; close() writes the rest.  Any call of the
    operating system may fail. *)
From Coq Require Import Reals String Ascii.
From Verif Require Import Prelude Dataset DatasetProps Evaluators DatasetText Tracer MultiModel.
Open Scope list_scope.

(** ** The disk and one open file (name, bytes still in memory) *)
Definition disk := string -> option chars.
Definition put (d : disk) (f : string) (t : chars) : disk := fun g => if String.eqb g f then Some t else d g.
Record pc := mkPc { p_disk : disk; p_open : option (string * chars) }.
(** open(f, "w") or "wb", f.write(t), f.close() *)
Inductive call := COpen (f : string) | CWrite (t : chars) | CClose.
Inductive answer : pc -> call -> pc -> result unit -> Prop :=
| a_open d h f : answer (mkPc d h) (COpen f) (mkPc (put d f []) (Some (f, []))) (Ok tt)
| a_open_fails d h f e : answer (mkPc d h) (COpen f) (mkPc d h) (Err e)
| a_write d f b t : answer (mkPc d (Some (f, b))) (CWrite t) (mkPc d (Some (f, b ++ t))) (Ok tt)
| a_write_fails d f b t n e : answer (mkPc d (Some (f, b))) (CWrite t) (mkPc d (Some (f, b ++ firstn n t))) (Err e)
| a_close d f b c : d f = Some c -> answer (mkPc d (Some (f, b))) CClose (mkPc (put d f (c ++ b)) None) (Ok tt)
| a_close_fails d f b c n e : d f = Some c -> answer (mkPc d (Some (f, b))) CClose (mkPc (put d f (c ++ firstn n b)) None) (Err e).

(** ** Programs that make such calls, and their executions *)
Inductive prog := Ret (r : result unit) | Call (c : call) (k : result unit -> prog).
Inductive step : prog * pc -> prog * pc -> Prop :=
| s_call c k s s' r : answer s c s' r -> step (Call c k, s) (k r, s')
| s_flush p d f b n c : d f = Some c -> step (p, mkPc d (Some (f, b))) (p, mkPc (put d f (c ++ firstn n b)) (Some (f, skipn n b))).
Inductive steps : prog * pc -> prog * pc -> Prop :=
| steps_here x : steps x x
| steps_next x y z : step x y -> steps y z -> steps x z.
(** an exception ends the program unless it is caught *)
Definition then_ (c : call) (p : prog) : prog := Call c (fun r => match r with Err e => Ret (Err e) | Ok _ => p end).

(** ** The writers *)
(** bytes = self.writestr(); f = open(filename, "w"); f.write(bytes); f.close()
    (pdfdataset.py:359-362, peakextraction.py:555-558, pdfpeakextraction.py:737-740) *)
Definition text_first (text : result chars) (f : string) : prog :=
  match text with
  | Err e => Ret (Err e)
  | Ok t => then_ (COpen f) (then_ (CWrite t) (then_ CClose (Ret (Ok tt))))
  end.
(** TracePeaks.write, srmiselog.py:230-234: the file is opened first *)
Definition open_first (text : result chars) (f : string) : prog :=
  then_ (COpen f) (match text with Err e => Ret (Err e) | Ok t => then_ (CWrite t) (then_ CClose (Ret (Ok tt))) end).
(** PeakStability.save, peakstability.py:76-99: the same with [finally: out_s.close()]; an
    exception of close() replaces the one before.  [dump]: what pickle makes, and whether it
    gets to the end. *)
Definition finally_close (r : result unit) : prog := Call CClose (fun c => match c with Err e => Ret (Err e) | Ok _ => Ret r end).
Definition save (text : result chars) (dump : chars -> chars * result unit) (f : string) : prog :=
  then_ (COpen f)
    (match text with
     | Err e => finally_close (Err e)
     | Ok t => Call (CWrite (fst (dump t))) (fun r => finally_close (match r with Err e => Err e | Ok _ => snd (dump t) end))
     end).

(** ** PDFDataSet.write and read *)
Section DataSet.
Variable parse : string -> option fl.
Variables fix2 gen shown : fl -> chars.
(** pdfdataset.py:347-363 *)
Definition ds_write (time user : chars) (st : state) (i : nat) (f : string) : prog :=
  text_first (match see st i with Some v => DatasetText.writestr fix2 gen shown time user v | None => Err AttributeError end) f.
(** bytes.decode("utf-8"); simplification: what is not ASCII is rejected with
    UnicodeDecodeError, a ValueError *)
Definition decode (t : chars) : result chars := if forallb (fun a => nat_of_ascii a <? 128)%nat t then Ok t else Err ValueError.
Variable abspath : string -> string.
Definition set_filename (st : state) (i : nat) (f : string) : state :=
  match nth_error (objs st) i with
  | None => st
  | Some d => set_obj st i (mkDs (d_name d) (d_robs d) (d_Gobs d) (d_drobs d) (d_dGobs d) (d_stype d) (d_qmax d) (d_qdamp d) (d_qbroad d) (d_spdiameter d) (d_dscale d)
                              (d_rmin d) (d_rmax d) (Some f) (d_meta d))
  end.
(** 194-217; a missing file is FileNotFoundError (OSError), here GenericException *)
Definition ds_read (d : disk) (st : state) (i : nat) (f : string) : state * result unit :=
  match d f with
  | None => (st, Err GenericException)
  | Some bytes =>
    match decode bytes with
    | Err e => (st, Err e)
    | Ok s =>
      match read_text parse st i s with
      | (st1, Ok _) => (set_filename st1 i (abspath f), Ok tt)
      | (st1, Err DataFormatError) => (st1, Err FileError)
      | (st1, Err e) => (st1, Err e)
      end
    end
  end.
End DataSet.

(** ** TracePeaks.emit with filebase *)
(** "%s_%i" % (self.filebase, trace["counter"]) *)
Definition trace_file (base : string) (counter : Z) : string := (base ++ "_" ++ show_int counter)%string.
(** One event of a tracer that writes files: a traced function is entered or left, a recursion
    starts or ends (Tracer.v), or emit (srmiselog.py:179-193); [pass]: the value of the filter,
    [text]: writestr of the trace, given recursion and counter.  The counter is raised after
    writing; an exception ends the operation.  Here every call of the operating system
    succeeds and the writer runs to its end. *)
Inductive tevent := TPushC | TPopC | TPushR | TPopR | TEmit (pass : bool) (text : Z -> Z -> result chars).
Definition tstep (base : string) (sd : tracer unit * disk) (e : tevent) : tracer unit * disk * result unit :=
  let '(s, d) := sd in
  match e with
  | TPushC => (pushc s, d, Ok tt) | TPopC => (popc s, d, Ok tt) | TPushR => (pushr s, d, Ok tt) | TPopR => (popr s, d, Ok tt)
  | TEmit false _ => (s, d, Ok tt)
  | TEmit true text =>
    let f := trace_file base (t_counter s) in
    match text (t_recursion s) (t_counter s) with
    | Err e => (s, put d f [], Err e)
    | Ok t => (mkTr (t_call s) (t_counter s + 1) (t_recursion s) (t_trace s), put d f t, Ok tt)
    end
  end.
Fixpoint tevents (base : string) (sd : tracer unit * disk) (l : list tevent) : tracer unit * disk * result unit :=
  match l with
  | [] => (sd, Ok tt)
  | e :: r => match tstep base sd e with (sd', Ok _) => tevents base sd' r | (sd', Err x) => (sd', Err x) end
  end.

(** ** MultimodelSelection.makeaics with a file, and loadaics *)
Section Aics.
Variable argsort : list R -> list nat.
Variable em : method.
(** pickle.dump of the table of statistics *)
Variable dump : dict (list evaluator) -> chars.
(** multimodelselection.py:64-141: the tables are complete before the file is opened *)
Definition makeaics_file (o : mms) (gs : list R) (f : string) : mms * prog :=
  match makeaics argsort em o gs with
  | Err e => (o, Ret (Err e))
  | Ok o' => (o', then_ (COpen f) (then_ (CWrite (dump (aics o'))) (then_ CClose (Ret (Ok tt)))))
  end.
(** loadaics, 155-182.  [undump]: pickle.load; self.aics = aics_in, 165, is the table of bare
    statistics (here: of evaluators).  np.sort(aics_in.keys()), 166: numpy makes an array
    without dimensions of the view of the keys, and sorting it raises AxisError (a ValueError
    and IndexError). *)
Variable undump : chars -> result (dict (list evaluator)).
Definition loadaics (d : disk) (o : mms) (f : string) : mms * result unit :=
  match d f with
  | None => (o, Err GenericException)
  | Some b =>
    match undump b with
    | Err e => (o, Err e)
    | Ok t => (mkMms (results o) (dgs o) (classes o) (classes_idx o) (class_tolerance o) t (aicweights o) (aicprobs o) (sortedprobs o)
                 (classweights o) (classprobs o) (sortedclassprobs o) (sortedclasses o), Err ValueError)
    end
  end.
End Aics.

(** Model of PDFDataSet: clear, setvar, getvar, readStr, copy (pdfdataset.py:100-192,
    219-345, 413-454).

    Data sets share list objects after copy, so lists and dictionaries live in a heap.
    Text is represented by its lines split into words; the regular expressions that parse
    the header are an arbitrary function, the one that rejects NaN and Inf is modelled.
    float() is an arbitrary partial function. *)
From Coq Require Import Reals String Ascii.
From Verif Require Import Prelude Evaluators.
Open Scope string_scope.

(** Python floats *)
Inductive fl := Fin (r : R) | PInf | NInf | NaN.
(** [v > 0.0] *)
Definition fl_pos (v : fl) : bool := match v with Fin r => Rltb 0 r | PInf => true | _ => false end.
Definition fl0 : fl := Fin 0.

(** One PDFDataSet: addresses of its lists and of its metadata, and plain values. *)
Record ds := mkDs {
  d_name : string; d_robs : nat; d_Gobs : nat; d_drobs : nat; d_dGobs : nat;
  d_stype : string; d_qmax : fl; d_qdamp : fl; d_qbroad : fl; d_spdiameter : option fl; d_dscale : fl;
  d_rmin : option fl; d_rmax : option fl; d_filename : option string; d_meta : nat }.
Record state := mkState { lists : list (list fl); dicts : list (list (string * fl)); objs : list ds }.

(** The reading half of the header (237-307): everything except the data lines. *)
Record header := mkHeader {
  h_stype : option string; h_qmax : option fl; h_qdamp : option fl; h_qbroad : option fl;
  h_spdiameter : option fl; h_dscale : option fl; h_meta : list (string * fl) }.
(** A text: its header values and the words of each line of the data body. *)
Record text := mkText { t_header : header; t_lines : list (list string) }.

(** *** inf_or_nan, 310: (?i)^[+-]?(NaN|Inf)\b *)
Definition lower (c : ascii) : ascii :=
  let n := nat_of_ascii c in if (65 <=? n)%nat && (n <=? 90)%nat then ascii_of_nat (n + 32) else c.
Definition is_word (c : ascii) : bool :=
  let n := nat_of_ascii (lower c) in ((97 <=? n) && (n <=? 122) || (48 <=? n) && (n <=? 57) || (n =? 95))%nat.
Definition at_boundary (s : string) : bool := match s with EmptyString => true | String c _ => negb (is_word c) end.
Fixpoint match_word (w s : string) : option string :=
  match w, s with
  | EmptyString, _ => Some s
  | String a w', String b s' => if Ascii.eqb a (lower b) then match_word w' s' else None
  | _, _ => None
  end.
Definition drop_sign (s : string) : string :=
  match s with String c r => if Ascii.eqb c "+" || Ascii.eqb c "-" then r else s | _ => s end.
Definition inf_or_nan (s : string) : bool :=
  let t := drop_sign s in
  match match_word "nan" t with
  | Some r => at_boundary r
  | None => match match_word "inf" t with Some r => at_boundary r | None => false end
  end.

Section Dataset.
(** float(word): None is ValueError *)
Variable parse : string -> option fl.

(** *** The data loop, 313-335 *)
Record obs := mkObs { o_r : list fl; o_G : list fl; o_dr : list fl; o_dG : list fl; has_dr : bool; has_dG : bool }.
Definition float (s : string) : result fl := match parse s with Some v => Ok v | None => Err ValueError end.
(** one of the two uncertainty columns at [k]: 321-325, 327-331 *)
Definition column (k : nat) (v : list string) (has : bool) (l : list fl) : result (bool * list fl) :=
  match nth_error v k with
  | Some s => if has && negb (inf_or_nan s) then do x <- float s; Ok (fl_pos x, (l ++ [x])%list) else Ok (false, l)
  | None => Ok (false, l)
  end.
(** an exception keeps what was appended before; [fst] is the state reached *)
Definition read_line (o : obs) (v : list string) : obs * result unit :=
  match (do s <- pyget v 0; float s) with
  | Err e => (o, Err e)
  | Ok x =>
    let o1 := mkObs (o_r o ++ [x])%list (o_G o) (o_dr o) (o_dG o) (has_dr o) (has_dG o) in
    match (do s <- pyget v 1; float s) with
    | Err e => (o1, Err e)
    | Ok y =>
      let o2 := mkObs (o_r o1) (o_G o ++ [y])%list (o_dr o) (o_dG o) (has_dr o) (has_dG o) in
      match column 2 v (has_dr o) (o_dr o) with
      | Err e => (o2, Err e)
      | Ok (h, l) =>
        let o3 := mkObs (o_r o2) (o_G o2) l (o_dG o) h (has_dG o) in
        match column 3 v (has_dG o) (o_dG o) with
        | Err e => (o3, Err e)
        | Ok (h', l') => (mkObs (o_r o3) (o_G o3) (o_dr o3) l' (has_dr o3) h', Ok tt)
        end
      end
    end
  end.
Fixpoint read_lines (o : obs) (ls : list (list string)) : obs * result unit :=
  match ls with
  | [] => (o, Ok tt)
  | v :: r => match read_line o v with (o', Ok _) => read_lines o' r | (o', Err e) => (o', Err e) end
  end.
(** 333-345: zeros if a column was not accepted *)
Definition zeros (o : obs) : list fl := repeat fl0 (List.length (o_r o)).
Definition finish (o : obs) : obs :=
  mkObs (o_r o) (o_G o) (if has_dr o then o_dr o else zeros o) (if has_dG o then o_dG o else zeros o) (has_dr o) (has_dG o).

(** *** The object store *)
Definition get_list (st : state) (a : nat) : list fl := nth a (lists st) [].
Definition get_dict (st : state) (a : nat) : list (string * fl) := nth a (dicts st) [].
Definition set_obj (st : state) (i : nat) (d : ds) : state := mkState (lists st) (dicts st) (upd (objs st) i d).
(** clear, 121-142: new list objects and a new dictionary *)
Definition fresh_ds (st : state) (name : string) (spot : nat) (mspot : nat) : ds :=
  mkDs name spot (spot + 1) (spot + 2) (spot + 3) "X" fl0 (Fin (1 / 1000)) fl0 None (Fin 1) None None None mspot.
Definition alloc (st : state) (four : list (list fl)) (meta : list (string * fl)) : state :=
  mkState (lists st ++ four)%list (dicts st ++ [meta])%list (objs st).
Definition clear (st : state) (i : nat) : state :=
  match nth_error (objs st) i with
  | None => st
  | Some d => set_obj (alloc st [[]; []; []; []] []) i (fresh_ds st (d_name d) (List.length (lists st)) (List.length (dicts st)))
  end.
(** PDFDataSet(name), 111-119; the new object is the last one. *)
Definition create (st : state) (name : string) : state :=
  let st1 := alloc st [[]; []; []; []] [] in
  mkState (lists st1) (dicts st1) (objs st ++ [fresh_ds st name (List.length (lists st)) (List.length (dicts st))])%list.

(** setvar and getvar, 144-192; [var] after strip(). *)
Definition set_num (d : ds) (qd qb dsc : fl) : ds :=
  mkDs (d_name d) (d_robs d) (d_Gobs d) (d_drobs d) (d_dGobs d) (d_stype d) (d_qmax d) qd qb (d_spdiameter d) dsc
    (d_rmin d) (d_rmax d) (d_filename d) (d_meta d).
Definition setvar (st : state) (i : nat) (var value : string) : state * result unit :=
  match nth_error (objs st) i with
  | None => (st, Err AttributeError)
  | Some d =>
    match parse value with
    | None => (st, Err ValueError)
    | Some v =>
      if String.eqb var "qdamp" then (set_obj st i (set_num d v (d_qbroad d) (d_dscale d)), Ok tt) else
      if String.eqb var "qbroad" then (set_obj st i (set_num d (d_qdamp d) v (d_dscale d)), Ok tt) else
      if String.eqb var "dscale" then (set_obj st i (set_num d (d_qdamp d) (d_qbroad d) v), Ok tt) else
      (st, Err KeyError)      (* SrMisePDFKeyError *)
    end
  end.
Definition getvar (st : state) (i : nat) (var : string) : result fl :=
  match nth_error (objs st) i with
  | None => Err AttributeError
  | Some d =>
    if String.eqb var "qdamp" then Ok (d_qdamp d) else
    if String.eqb var "qbroad" then Ok (d_qbroad d) else
    if String.eqb var "dscale" then Ok (d_dscale d) else Err KeyError
  end.

(** readStr, 219-345.  After clear() everything is written to the new objects; the appends
    to the lists are represented by their final content.  PDFDataFormatError is
    DataFormatError; on failure the lists keep the lines read so far and rmin, rmax stay
    None. *)
Definition def {A} (o : option A) (d : A) : A := match o with Some v => v | None => d end.
Definition readstr (st : state) (i : nat) (t : text) : state * result unit :=
  match nth_error (objs st) i with
  | None => (st, Err AttributeError)
  | Some d0 =>
    let h := t_header t in
    let '(o, r) := read_lines (mkObs [] [] [] [] true true) (t_lines t) in
    let n := List.length (lists st) in
    let base := fresh_ds st (d_name d0) n (List.length (dicts st)) in
    let o' := match r with Ok _ => finish o | Err _ => o end in
    let st1 := alloc st [o_r o'; o_G o'; o_dr o'; o_dG o'] (h_meta h) in
    let d lo hi := mkDs (d_name d0) n (n + 1) (n + 2) (n + 3) (def (h_stype h) (d_stype base))
      (def (h_qmax h) (d_qmax base)) (def (h_qdamp h) (d_qdamp base)) (def (h_qbroad h) (d_qbroad base))
      (match h_spdiameter h with Some v => Some v | None => d_spdiameter base end)
      (def (h_dscale h) (d_dscale base)) lo hi None (d_meta base) in
    match r with
    | Err _ => (set_obj st1 i (d None None), Err DataFormatError)
    | Ok _ =>
      match pyget (o_r o') 0, pyget (o_r o') (-1) with
      | Ok a, Ok b => (set_obj st1 i (d (Some a) (Some b)), Ok tt)
      | _, _ => (set_obj st1 i (d None None), Err IndexError)
      end
    end
  end.

(** copy, 413-454: lists are shared, the dictionary is copied, spdiameter is not in either
    list of attributes. *)
Definition copy (st : state) (i : nat) (other : option nat) : state * result nat :=
  match nth_error (objs st) i with
  | None => (st, Err AttributeError)
  | Some d0 =>
    let '(st1, j) := match other with
                     | None => (create st (d_name d0), List.length (objs st))
                     | Some j => (clear st j, j) end in
    match nth_error (objs st1) i, nth_error (objs st1) j with
    | Some s, Some t =>
      let st2 := mkState (lists st1) (dicts st1 ++ [get_dict st1 (d_meta s)])%list (objs st1) in
      (set_obj st2 j (mkDs (d_name t) (d_robs s) (d_Gobs s) (d_drobs s) (d_dGobs s) (d_stype s) (d_qmax s) (d_qdamp s) (d_qbroad s)
         (d_spdiameter t) (d_dscale s) (d_rmin s) (d_rmax s) (d_filename s) (List.length (dicts st1))), Ok j)
    | _, _ => (st, Err AttributeError)
    end
  end.
End Dataset.

(** *** Histories of calls *)
(** ds.metadata[k] = v by the user: the dictionary is public and changed in place. *)
Definition set_meta (st : state) (i : nat) (k : string) (v : fl) : state :=
  match nth_error (objs st) i with
  | None => st
  | Some d => mkState (lists st) (upd (dicts st) (d_meta d) ((k, v) :: get_dict st (d_meta d))) (objs st)
  end.
(** ds.robs.append(v) by the user *)
Definition append_robs (st : state) (i : nat) (v : fl) : state :=
  match nth_error (objs st) i with
  | None => st
  | Some d => mkState (upd (lists st) (d_robs d) (get_list st (d_robs d) ++ [v])%list) (dicts st) (objs st)
  end.
Inductive op :=
| New (name : string) | Clear (i : nat) | SetVar (i : nat) (var value : string) | Read (i : nat) (t : text)
| CopyNew (i : nat) | CopyTo (i j : nat) | SetMeta (i : nat) (k : string) (v : fl).
(** The object an operation is meant to change. *)
Definition target (o : op) : option nat :=
  match o with
  | New _ => None | Clear i => Some i | SetVar i _ _ => Some i | Read i _ => Some i
  | CopyNew _ => None | CopyTo _ j => Some j | SetMeta i _ _ => Some i
  end.
Definition step (parse : string -> option fl) (st : state) (o : op) : state :=
  match o with
  | New n => create st n
  | Clear i => clear st i
  | SetVar i a b => fst (setvar parse st i a b)
  | Read i t => fst (readstr parse st i t)
  | CopyNew i => fst (copy st i None)
  | CopyTo i j => fst (copy st i (Some j))
  | SetMeta i k v => set_meta st i k v
  end.
Definition run (parse : string -> option fl) (st : state) (h : list op) : state := fold_left (step parse) h st.
Definition empty : state := mkState [] [] [].

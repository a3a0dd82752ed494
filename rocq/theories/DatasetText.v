(** Model of the text of a data set: PDFDataSet.writeStr (pdfdataset.py:365-411) and the part
    of readStr that finds the header, the metadata and the data lines with regular
    expressions (pdfdataset.py:231-316).  Texts are lists of ASCII characters; the numbers of
    the data lines are read in Dataset.v. *)
From Coq Require Import Reals String Ascii.
From Verif Require Import Prelude Evaluators Dataset DatasetProps.
Open Scope list_scope.

Definition chars := list ascii.
Definition txt (s : string) : chars := list_ascii_of_string s.
Definition str (c : chars) : string := string_of_list_ascii c.

(** ** Regular expressions as Python's re matches them: alternatives from left to right,
    repetitions as long as possible, going back when what follows fails *)
Inductive re :=
| Chr (p : ascii -> bool) | Bol (* ^ with re.M *) | Bnd (* \b *) | Eps
| Seq (a b : re) | Alt (a b : re) | Star (a : re) | Grp (n : nat) (a : re).
Definition newline : ascii := "010".
Definition caps := list (nat * chars).
Definition word_at (o : option ascii) : bool := match o with Some c => is_word c | None => false end.
(** [prev]: the character before the place; the continuation gets the place after the match *)
Section Run.
Context {A : Type}.
Definition cont := option ascii -> chars -> caps -> option A.
(** a repetition; every round has to consume something, so that [n] = length of the text suffices *)
Definition star_loop (step : option ascii -> chars -> caps -> cont -> option A) (k : cont) :=
  fix loop (n : nat) (prev : option ascii) (s : chars) (c : caps) : option A :=
    match n with
    | O => k prev s c
    | S n' =>
      match step prev s c (fun p' s' c' => if (length s' <? length s)%nat then loop n' p' s' c' else None) with
      | Some x => Some x
      | None => k prev s c
      end
    end.
Fixpoint run (r : re) (prev : option ascii) (s : chars) (c : caps) (k : cont) : option A :=
  match r with
  | Chr p => match s with a :: t => if p a then k (Some a) t c else None | [] => None end
  | Bol => match prev with None => k prev s c | Some a => if Ascii.eqb a newline then k prev s c else None end
  | Bnd => if xorb (word_at prev) (word_at (hd_error s)) then k prev s c else None
  | Eps => k prev s c
  | Seq a b => run a prev s c (fun p' s' c' => run b p' s' c' k)
  | Alt a b => match run a prev s c k with Some x => Some x | None => run b prev s c k end
  | Star a => star_loop (run a) k (length s) prev s c
  | Grp n a => run a prev s c (fun p' s' c' => k p' s' ((n, firstn (length s - length s') s) :: c'))
  end.
End Run.
(** re.search: start, what is left after the match, groups *)
Fixpoint search (r : re) (pos : nat) (prev : option ascii) (s : chars) : option (nat * chars * caps) :=
  match run r prev s [] (fun _ s' c => Some (pos, s', c)) with
  | Some x => Some x
  | None => match s with [] => None | a :: t => search r (S pos) (Some a) t end
  end.
Definition group (n : nat) (c : caps) : chars := match find (fun p => Nat.eqb (fst p) n) c with Some p => snd p | None => [] end.

(** Building blocks *)
Definition one (a : ascii) : re := Chr (Ascii.eqb a).
Definition one_i (a : ascii) : re := Chr (fun b => Ascii.eqb (lower a) (lower b)).    (* re.I *)
Fixpoint lit (w : chars) : re := match w with [] => Eps | a :: r => Seq (one a) (lit r) end.
Fixpoint lit_i (w : chars) : re := match w with [] => Eps | a :: r => Seq (one_i a) (lit_i r) end.
Fixpoint alts (l : list re) : re := match l with [] => Chr (fun _ => false) | [r] => r | r :: rest => Alt r (alts rest) end.
Definition opt (r : re) : re := Alt r Eps.
Definition plus (r : re) : re := Seq r (Star r).
Definition digit (a : ascii) : bool := let n := nat_of_ascii a in (48 <=? n)%nat && (n <=? 57)%nat.
(** \s: space, tab, newline, vertical tab, form feed, return, and 28 to 31 *)
Definition space (a : ascii) : bool := let n := nat_of_ascii a in (n =? 32)%nat || ((9 <=? n) && (n <=? 13))%nat || ((28 <=? n) && (n <=? 31))%nat.
Definition dig := Chr digit.
(** 233: [-+]?(\d+(\.\d* )?|\d*\.\d+)([eE][-+]?\d+)? *)
Definition num : re :=
  Seq (opt (Alt (one "-") (one "+")))
 (Seq (Alt (Seq (plus dig) (opt (Seq (one ".") (Star dig)))) (Seq (Star dig) (Seq (one ".") (plus dig))))
      (opt (Seq (Alt (one "e") (one "E")) (Seq (opt (Alt (one "-") (one "+"))) (plus dig))))).
(** 235: ^#+ start data\s*(?:#.*\s+)* *)
Definition start_re : re :=
  Seq Bol (Seq (plus (one "#")) (Seq (lit (txt " start data")) (Seq (Star (Chr space))
    (Star (Seq (one "#") (Seq (Star (Chr (fun a => negb (Ascii.eqb a newline)))) (plus (Chr space)))))))).
(** 241: ^\s*(number) *)
Definition first_number_re : re := Seq Bol (Seq (Star (Chr space)) num).
(** 252: ^#+ +metadata\b\n *)
Definition metadata_re : re := Seq Bol (Seq (plus (one "#")) (Seq (plus (one " ")) (Seq (lit (txt "metadata")) (Seq Bnd (one newline))))).
(** 259, 261 *)
Definition xray_re : re := Alt (Seq (one_i "x") (Seq (opt (one_i "-")) (lit_i (txt "ray")))) (lit_i (txt "PDFgetX")).
Definition neutron_re : re := Alt (lit_i (txt "neutron")) (lit_i (txt "PDFgetN")).
(** 264-293: \b(?:key|key) *= *(number)\b *)
Definition key_re (key : re) : re :=
  Seq Bnd (Seq key (Seq (Star (one " ")) (Seq (one "=") (Seq (Star (one " ")) (Seq (Grp 1 num) Bnd))))).
Definition qmax_re := key_re (lit_i (txt "qmax")).
Definition qdamp_re := key_re (alts [lit_i (txt "qdamp"); lit_i (txt "qsig")]).
Definition qbroad_re := key_re (alts [lit_i (txt "qbroad"); lit_i (txt "qalp")]).
Definition spdiameter_re := key_re (lit_i (txt "spdiameter")).
Definition dscale_re := key_re (lit_i (txt "dscale")).
Definition temperature_re := key_re (alts [lit (txt "temp"); lit (txt "temperature"); lit (txt "T")]).
Definition doping_re := key_re (alts [lit (txt "x"); lit (txt "doping")]).
(** 301: \b(\w+)\ *=\ *(number)\b *)
Definition pair_re : re :=
  Seq Bnd (Seq (Grp 1 (plus (Chr is_word))) (Seq (Star (one " ")) (Seq (one "=") (Seq (Star (one " ")) (Seq (Grp 2 num) Bnd))))).

Section Text.
Variable parse : string -> option fl.      (* float() *)

(** float(res.groups()[0]) *)
Definition field (r : re) (h : chars) : result (option fl) :=
  match search r 0 None h with
  | None => Ok None
  | Some (_, _, c) => match parse (str (group 1 c)) with Some v => Ok (Some v) | None => Err ValueError end
  end.
(** self.metadata[k] = v *)
Fixpoint dict_set (d : list (string * fl)) (k : string) (v : fl) : list (string * fl) :=
  match d with [] => [(k, v)] | (k', v') :: r => if String.eqb k k' then (k, v) :: r else (k', v') :: dict_set r k v end.
(** 300-308; each round shortens the text *)
Fixpoint pairs (fuel : nat) (m : chars) (d : list (string * fl)) : result (list (string * fl)) :=
  match fuel with
  | O => Ok d
  | S f =>
    match search pair_re 0 None m with
    | None => Ok d
    | Some (_, rest, c) => match parse (str (group 2 c)) with Some v => pairs f rest (dict_set d (str (group 1 c)) v) | None => Err ValueError end
    end
  end.
(** strip, split("\n"), split() *)
Fixpoint drop_space (s : chars) : chars := match s with a :: t => if space a then drop_space t else s | [] => [] end.
Definition strip (s : chars) : chars := rev (drop_space (rev (drop_space s))).
Fixpoint split_lines (cur : chars) (s : chars) : list chars :=
  match s with [] => [rev cur] | a :: t => if Ascii.eqb a newline then rev cur :: split_lines [] t else split_lines (a :: cur) t end.
Fixpoint split_words (cur : chars) (s : chars) : list chars :=
  match s with
  | [] => match cur with [] => [] | _ => [rev cur] end
  | a :: t => if space a then match cur with [] => split_words [] t | _ => rev cur :: split_words [] t end else split_words (a :: cur) t
  end.
(** 231-308: the header and the words of the data lines *)
Definition parse_text (s : chars) : result text :=
  let start := match search start_re 0 None s with
               | Some (_, rest, _) => (length s - length rest)%nat
               | None => match search first_number_re 0 None s with Some (p, _, _) => p | None => O end
               end in
  let header := firstn start s in
  let body := strip (skipn start s) in
  let '(header, metadata) := match search metadata_re 0 None header with
                             | Some (p, rest, _) => (firstn p header, rest)
                             | None => (header, [])
                             end in
  let stype := match search xray_re 0 None header with
               | Some _ => Some "X"%string
               | None => match search neutron_re 0 None header with Some _ => Some "N"%string | None => None end
               end in
  do qmax <- field qmax_re header;
  do qdamp <- field qdamp_re header;
  do qbroad <- field qbroad_re header;
  do spd <- field spdiameter_re header;
  do dscale <- field dscale_re header;
  do temp <- field temperature_re header;
  do dop <- field doping_re header;
  let d0 := match temp with Some v => [("temperature"%string, v)] | None => [] end in
  let d1 := match dop with Some v => dict_set d0 "doping" v | None => d0 end in
  do meta <- pairs (S (length metadata)) metadata d1;
  Ok (mkText (mkHeader stype qmax qdamp qbroad spd dscale meta) (map (fun l => map str (split_words [] l)) (split_lines [] body))).

(** readStr as a whole, 219-345: clear() comes first, the header next, then the data.  An
    exception of float() on a header value would leave an empty data set. *)
Definition read_text (st : state) (i : nat) (s : chars) : state * result unit :=
  match parse_text s with
  | Ok t => readstr parse st i t
  | Err e => (clear st i, Err e)
  end.

(** ** writeStr, 365-411 *)
Variable fix2 : fl -> chars.       (* "%.2f" *)
Variable gen : fl -> chars.        (* "%g" *)
Variable shown : fl -> chars.      (* "%s" *)
Definition is_zero (v : fl) : bool := match v with Fin r => if Req_EM_T r 0 then true else false | _ => false end.
Fixpoint data_lines (r g dr dg : list fl) : result (list chars) :=
  match r with
  | [] => Ok []
  | a :: r' =>
    match g, dr, dg with
    | b :: g', c :: dr', d :: dg' => do rest <- data_lines r' g' dr' dg'; Ok ((gen a ++ txt " " ++ gen b ++ txt " " ++ gen c ++ txt " " ++ gen d) :: rest)
    | _, _, _ => Err IndexError
    end
  end.
Definition header_lines (time user : chars) (v : view) : list chars :=
  [txt "History written: " ++ time; txt "produced by " ++ user; txt "##### PDFgui"] ++
  (if String.eqb (v_stype v) "X" then [txt "stype=X  x-ray scattering"] else if String.eqb (v_stype v) "N" then [txt "stype=N  neutron scattering"] else []) ++
  [if is_zero (v_qmax v) then txt "qmax=0   correction not applied" else txt "qmax=" ++ fix2 (v_qmax v)] ++
  [txt "qdamp=" ++ gen (v_qdamp v); txt "qbroad=" ++ gen (v_qbroad v); txt "dscale=" ++ gen (v_dscale v)].
Definition meta_lines (v : view) : list chars :=
  match v_meta v with [] => [] | _ => txt "# metadata" :: map (fun p => txt (fst p) ++ txt "=" ++ shown (snd p)) (v_meta v) end.
Definition join_lines (l : list chars) : chars := concat (map (fun x => x ++ [newline]) l).
Definition writestr (time user : chars) (v : view) : result chars :=
  do data <- data_lines (v_robs v) (v_Gobs v) (v_drobs v) (v_dGobs v);
  Ok (join_lines (header_lines time user v ++ meta_lines v ++ [txt "##### start data"; txt "#L r(A) G(r) d_r d_Gr"] ++ data)).
End Text.

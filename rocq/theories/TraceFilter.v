(** Model of the filter of TracePeaks (srmiselog.py:159-193 and 346-353): the list of
    expressions given to settracer is joined to one text, compiled by Python, and evaluated
    at every emit.

    A text is its sequence of tokens.  Everything between the words and, or, not, if, else
    and the parentheses is one opaque token (a comparison, a name, a call): [KAtom].  Of
    Python's grammar for "eval" the rules test, or_test, and_test, not_test and the
    parenthesised form are modelled; lambda, tuples, :=, comments and line ends are not. *)
From Verif Require Import Prelude Tracer.
Open Scope Z_scope.

Section Filter.
Context {A T : Type}.   (* operands; traces *)

Inductive tok := KAtom (a : A) | KAnd | KOr | KNot | KIf | KElse | KLpar | KRpar.
Inductive expr := EAtom (a : A) | EAnd (x y : expr) | EOr (x y : expr) | ENot (x : expr) | ECond (test x y : expr).

(** Python's grammar: test: or_test ['if' or_test 'else' test]; or_test: and_test ('or'
    and_test)*; and_test: not_test ('and' not_test)*; not_test: 'not' not_test | '(' test
    ')' | operand.  Repetition is read to the right, which gives the same values.  The
    first argument bounds the depth (TraceFilterProps.parse_enough: never reached). *)
Inductive level := LTest | LOr | LAnd | LNot.
Fixpoint parse (n : nat) (lv : level) (l : list tok) : option (expr * list tok) :=
  match n with
  | O => None
  | S n =>
    match lv with
    | LTest =>
      match parse n LOr l with
      | Some (x, KIf :: r) =>
        match parse n LOr r with
        | Some (c, KElse :: r') => match parse n LTest r' with Some (y, r'') => Some (ECond c x y, r'') | None => None end
        | _ => None
        end
      | o => o
      end
    | LOr =>
      match parse n LAnd l with
      | Some (x, KOr :: r) => match parse n LOr r with Some (y, r') => Some (EOr x y, r') | None => None end
      | o => o
      end
    | LAnd =>
      match parse n LNot l with
      | Some (x, KAnd :: r) => match parse n LAnd r with Some (y, r') => Some (EAnd x y, r') | None => None end
      | o => o
      end
    | LNot =>
      match l with
      | KNot :: r => match parse n LNot r with Some (x, r') => Some (ENot x, r') | None => None end
      | KLpar :: r => match parse n LTest r with Some (x, KRpar :: r') => Some (x, r') | _ => None end
      | KAtom a :: r => Some (EAtom a, r)
      | _ => None
      end
    end
  end.
(** compile(text, "<string>", "eval"); None: SyntaxError *)
Definition compile (l : list tok) : option expr :=
  match parse (4 * length l + 5) LTest l with Some (x, []) => Some x | _ => None end.

(** The truth of the value of an expression, all that emit looks at (184); operands may
    raise, and are evaluated from left to right, only as far as needed. *)
Fixpoint eval (env : A -> result bool) (x : expr) : result bool :=
  match x with
  | EAtom a => env a
  | EAnd x y => do b <- eval env x; if b then eval env y else Ok false
  | EOr x y => do b <- eval env x; if b then Ok true else eval env y
  | ENot x => do b <- eval env x; Ok (negb b)
  | ECond c x y => do b <- eval env c; if b then eval env x else eval env y
  end.

(** " and ".join(["(%s)" % f for f in filter]), 348 *)
Definition paren (f : list tok) : list tok := KLpar :: f ++ [KRpar].
Fixpoint joined (fs : list (list tok)) : list tok :=
  match fs with [] => [] | [f] => paren f | f :: r => paren f ++ KAnd :: joined r end.

(** The tracer with its compiled filter *)
Record ftracer := mkFt { f_filter : expr; f_state : tracer T }.
(** setfilter, 347-348; None: SyntaxError, the filter stays *)
Definition setfilter (s : ftracer) (fs : list (list tok)) : option ftracer :=
  match compile (joined fs) with Some x => Some (mkFt x (f_state s)) | None => None end.
(** TracePeaks(filter=fs), 159-177, and settracer, 359-362 (store=True); the default of the
    keyword is the list of the one text "False". *)
Definition new_ftracer (false_ : A) (kwd : option (list (list tok))) : option ftracer :=
  match compile (joined (match kwd with Some fs => fs | None => [[KAtom false_]] end)) with
  | Some x => Some (mkFt x new_tracer)
  | None => None
  end.
(** emit, 179-193: the filter is evaluated with the operands' values at that time; [make] is
    maketrace (without failures, and store=True). *)
Definition femit (env : A -> result bool) (s : ftracer) (make : Z -> Z -> T) : ftracer * result unit :=
  match eval env (f_filter s) with
  | Err e => (s, Err e)
  | Ok b => (mkFt (f_filter s) (emit (f_state s) b make), Ok tt)
  end.
End Filter.
Arguments tok : clear implicits. Arguments expr : clear implicits. Arguments ftracer : clear implicits.

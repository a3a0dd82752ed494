(** Model of the function-object bookkeeping of basefunction.py: constructor
    validation, dependency-ordered serialization, reference indices on loading,
    and the owner index of Peak.factory / Baseline.factory. *)
From Coq Require Import String Permutation Sorting.
From Verif Require Import Prelude.

(** ** BaseFunction.__init__, basefunction.py:74-146 *)
(** A dictionary key: a string or some other hashable object. *)
Inductive pykey := KStr (s : string) | KOther (n : nat).

Fixpoint zinsert (z : Z) (l : list Z) : list Z :=
  match l with [] => [z] | a :: r => if (z <=? a)%Z then z :: a :: r else a :: zinsert z r end.
(** list.sort() on integers. *)
Definition zsort (l : list Z) : list Z := fold_right zinsert [] l.

Fixpoint zlist_eqb (a b : list Z) : bool :=
  match a, b with
  | [], [] => true
  | x :: a', y :: b' => (x =? y)%Z && zlist_eqb a' b'
  | _, _ => false
  end.

Definition is_str (k : pykey) : bool := match k with KStr _ => true | _ => false end.

(** parameterdict, parformats and default_formats as association lists in
    dictionary order; returns npars.  (metadict, base and Cache are stored
    unchecked.) *)
Definition function_init (parameterdict : list (pykey * Z)) (parformats : list string)
    (default_formats : list (string * string)) : result nat :=
  let npars := List.length parameterdict in
  if negb (forallb (fun kv => is_str (fst kv)) parameterdict) then Err ValueError else
  if negb (zlist_eqb (zsort (map snd parameterdict)) (map Z.of_nat (seq 0 npars))) then Err ValueError else
  let has k := existsb (fun kv => String.eqb (fst kv) k) default_formats in
  if negb (has "default_input" && has "default_output")%string then Err ValueError else
  if negb (forallb (fun kv => existsb (String.eqb (snd kv)) parformats) default_formats) then Err ValueError else
  Ok npars.

(** ** Format names, basefunction.py:289-332 (and 247-287): resolution of the generic
    names and the membership checks, before _transform_parametersraw is called. *)
Definition lookup (d : list (string * string)) (k : string) : option string :=
  match find (fun kv => String.eqb (fst kv) k) d with Some kv => Some (snd kv) | None => None end.
Definition resolve (default_formats : list (string * string)) (parformats : list string)
    (dflt : string) (fmt : option string) : result string :=
  let get k := match lookup default_formats k with Some f => f | None => EmptyString end in
  let f0 := match fmt with None => get dflt | Some f => f end in
  let f1 := if String.eqb f0 "default_input" then get "default_input"%string
            else if String.eqb f0 "default_output" then get "default_output"%string else f0 in
  if existsb (String.eqb f1) parformats then Ok f1 else Err ValueError.

(** ** Dependencies *)
Section Graph.
(** [base f]: the function that f decorates (basefunction.py:143). *)
Variable base : nat -> option nat.

Definition mem (f : nat) (l : list nat) : bool := existsb (Nat.eqb f) l.

(** BaseFunction.safefunction, basefunction.py:517-540.  [in] on function objects is
    identity (BaseFunction defines no __eq__).  [depth] is the recursion limit:
    None is RecursionError. *)
Fixpoint safefunction (depth : nat) (f : nat) (fsafe : list nat) : option (list nat) :=
  match depth with
  | O => None
  | S d =>
    if mem f fsafe then Some fsafe else
    match base f with
    | None => Some (fsafe ++ [f])
    | Some g => match safefunction d g fsafe with
                | None => None
                | Some l => Some (l ++ [f])
                end
    end
  end.

(** BaseFunction.safefunctionlist, basefunction.py:499-515. *)
Fixpoint safe_loop (depth : nat) (fs : list nat) (fsafe : list nat) : option (list nat) :=
  match fs with
  | [] => Some fsafe
  | f :: r => match safefunction depth f fsafe with
              | None => None
              | Some l => safe_loop depth r l
              end
  end.
Definition safefunctionlist depth fs := safe_loop depth fs [].

Fixpoint index_of (f : nat) (l : list nat) : option nat :=
  match l with
  | [] => None
  | g :: r => if Nat.eqb f g then Some 0 else option_map S (index_of f r)
  end.

(** BaseFunction.writestr, basefunction.py:403-434, the base reference only. *)
Definition write_base (baselist : list nat) (f : nat) : result (option Z) :=
  match base f with
  | None => Ok None
  | Some g => match index_of g baselist with
              | None => Err ValueError
              | Some i => Ok (Some (Z.of_nat i))
              end
  end.

(** Writing a whole list (modelcluster.py:571-582, peakextraction.py:609-624). *)
Fixpoint write_all (baselist l : list nat) : result (list (option Z)) :=
  match l with
  | [] => Ok []
  | f :: r => do b <- write_base baselist f; do bs <- write_all baselist r; Ok (b :: bs)
  end.
End Graph.

(** BaseFunction.factory, basefunction.py:478-495, the base reference: the bound
    test is [idx > len(baselist)]; then list indexing.  The loaded list is
    represented by the positions of the loaded objects' bases. *)
Definition factory_ref {A} (idx : Z) (baselist : list A) : result A :=
  if (idx >? Z.of_nat (List.length baselist))%Z then Err ValueError else pyget baselist idx.

(** A loaded function: its own position and (a reference to) its base. *)
Inductive loaded := Loaded (pos : nat) (b : option loaded).

Definition factory (written : option Z) (baselist : list loaded) : result loaded :=
  match written with
  | None => Ok (Loaded (List.length baselist) None)
  | Some i => do b <- factory_ref i baselist; Ok (Loaded (List.length baselist) (Some b))
  end.

(** Loading the written functions in order (modelcluster.py:694-707). *)
Fixpoint load_all (ws : list (option Z)) (acc : list loaded) : result (list loaded) :=
  match ws with
  | [] => Ok acc
  | w :: r => do f <- factory w acc; load_all r (acc ++ [f])
  end.

(** Peak.factory, peaks/base.py:296-305, and Baseline.factory,
    baselines/base.py:189-198: same bound test on the owner index. *)
Definition part_factory_owner {A} (idx : Z) (ownerlist : list A) : result A := factory_ref idx ownerlist.

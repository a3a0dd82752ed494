(** Model of multimodelselection.py: makeaics, the probability tables, classify, and the
    queries (lines 50-207, 330-576, 764-1004).

    Simplifications.  Real arithmetic, no NaN or infinity.  A stored result (peaks,
    baseline) is represented by what these methods read from it.  Dictionaries keyed by
    uncertainties are partial functions on the reals.  When an exception is raised the
    object keeps whatever was assigned before; only the exception is represented.
    Printing, pickling and plotting are not modelled. *)
From Coq Require Import Reals String.
From Verif Require Import Prelude Evaluators.
Open Scope R_scope.

(** *** Dictionaries keyed by floats *)
Definition dict A := R -> option A.
Definition dempty {A} : dict A := fun _ => None.
Definition dset {A} (d : dict A) (k : R) (v : A) : dict A := fun k' => if Req_EM_T k' k then Some v else d k'.
Definition dget {A} (d : dict A) (k : R) : result A := match d k with Some v => Ok v | None => Err KeyError end.
(** [for dg in dgs: d[dg] = f(dg)] on an empty dictionary. *)
Fixpoint tabulate {A} (f : R -> result A) (dgs : list R) (d : dict A) : result (dict A) :=
  match dgs with
  | [] => Ok d
  | k :: r => do v <- f k; tabulate f r (dset d k v)
  end.
Fixpoint map_result {A B} (f : A -> result B) (l : list A) : result (list B) :=
  match l with [] => Ok [] | a :: r => do b <- f a; do bs <- map_result f r; Ok (b :: bs) end.

(** *** A stored result, self.results[i] *)
(** One peak or baseline: its class, npars() with the default argument, free parameters
    only, and its values on a grid. *)
Record part := mkPart { ptype : nat; pnpars : nat; pnfree : nat; pvalue : list R -> list R }.
(** [r_points]: the model's value and the observed value at each point of the resampled
    data (what mc.value() and mc.y_cluster are in makeaics; the cluster covers all points).
    [r_all], [r_free]: result[1].npars with and without fixed parameters. *)
Record model := mkModel { m_peaks : list part; m_base : part; m_all : nat; m_free : nat; m_points : list (R * R) }.

(** *** The object, multimodelselection.py:41-62 (PeakStability.results included) *)
Record mms := mkMms {
  results : list model;
  dgs : list R;
  classes : list (list nat);
  classes_idx : nat -> option nat;
  class_tolerance : option R;
  aics : dict (list evaluator);
  aicweights : dict (list R);
  aicprobs : dict (list R);
  sortedprobs : dict (list nat);
  classweights : dict (list R);
  classprobs : dict (list R);
  sortedclassprobs : dict (list nat);
  sortedclasses : dict (list (list nat)) }.

Section MultiModel.
(** np.argsort (not stable) and ppe.error_method: AIC or AICc. *)
Variable argsort : list R -> list nat.
Variable em : method.

(** *** makeaics, 64-141 *)
(** The cluster built at 109-118 with constant uncertainty s. *)
Definition cluster_fit (m : model) (s : R) : fitdata :=
  mkFit (m_all m) (m_free m) (map (fun p => (fst p, snd p, s)) (m_points m)).
(** 79-84 *)
Definition init_aics (dgs : list R) (d : dict (list evaluator)) : dict (list evaluator) :=
  fold_left (fun d k => dset d k []) dgs d.
(** [d[k].append(e)] *)
Definition dappend (d : dict (list evaluator)) (k : R) (e : evaluator) : result (dict (list evaluator)) :=
  do l <- dget d k; Ok (dset d k (l ++ [e])).
(** 119-126; evaluating never changes an existing chisq *)
Fixpoint rescale_all (m : model) (dg0 c0 : R) (dgs : list R) (d : dict (list evaluator)) : result (dict (list evaluator)) :=
  match dgs with
  | [] => Ok d
  | dg :: r =>
    let e := mkEv em false None (Some (c0 * (dg0 / dg) ^ 2)) in
    let '(e', s) := evaluate e (cluster_fit m dg0) false 0 in
    do _ <- s;
    do d' <- dappend d dg e';
    rescale_all m dg0 c0 r d'
  end.
(** 88-126 *)
Fixpoint test_models (ms : list model) (dgs : list R) (d : dict (list evaluator)) : result (dict (list evaluator)) :=
  match ms with
  | [] => Ok d
  | m :: r =>
    do dg0 <- pyget dgs 0;
    let '(em0, s) := evaluate (new_evaluator em false) (cluster_fit m dg0) false 0 in
    do _ <- s;
    match chisq em0 with
    | None => Err TypeError
    | Some c0 => do d' <- rescale_all m dg0 c0 dgs d; test_models r dgs d'
    end
  end.
(** [aic.stat for aic in aics]; a missing statistic is a TypeError in the arithmetic *)
Definition stats (l : list evaluator) : result (list R) :=
  map_result (fun e => match stat e with Some s => Ok s | None => Err TypeError end) l.
(** 184-207 *)
Definition makeaicweights (dgs : list R) (a : dict (list evaluator)) :=
  tabulate (fun dg => do l <- dget a dg; do s <- stats l; akaikeweights s) dgs dempty.
Definition makeaicprobs (dgs : list R) (a : dict (list evaluator)) :=
  tabulate (fun dg => do l <- dget a dg; do s <- stats l; akaikeprobs s) dgs dempty.
Definition makesortedprobs (dgs : list R) (p : dict (list R)) :=
  tabulate (fun dg => do l <- dget p dg; Ok (argsort l)) dgs dempty.
Definition makeaics (s : mms) (gs : list R) : result mms :=
  do a <- test_models (results s) gs (init_aics gs (aics s));
  do w <- makeaicweights gs a;
  do p <- makeaicprobs gs a;
  do sp <- makesortedprobs gs p;
  Ok (mkMms (results s) gs (classes s) (classes_idx s) (class_tolerance s) a w p sp
        (classweights s) (classprobs s) (sortedclassprobs s) (sortedclasses s)).

(** *** classify, 330-432 *)
Definition square (l : list R) : list R := map (fun v => v ^ 2) l.
Fixpoint minus (a b : list R) : list R :=
  match a, b with x :: a', y :: b' => (x - y) :: minus a' b' | _, _ => [] end.
(** 397-401 and 406-409: [basediff > tol*sum(e) or basediff > tol*sum(p)] *)
Definition differs (tol : R) (p ep : list R) : bool :=
  let basediff := Rabs (Rsum (minus p ep)) in
  Rltb (tol * Rsum ep) basediff || Rltb (tol * Rsum p) basediff.
Fixpoint zip_any {A B} (f : A -> B -> bool) (l : list A) (l' : list B) : bool :=
  match l, l' with a :: r, b :: r' => f a b || zip_any f r r' | _, _ => false end.
(** A class: member indices, and the exemplar's squared values (epsqval, ebsqval). *)
Record cls := mkCls { members : list nat; epsq : list (list R); ebsq : list R }.
Definition part_differs (p q : part) : bool := negb (Nat.eqb (ptype p) (ptype q)) || negb (Nat.eqb (pnpars p) (pnpars q)).
(** the checks at 378-409 against class [c]: true if the model goes into it *)
Definition fits_class (ms : list model) (tol : R) (m : model) (psq : list (list R)) (bsq : list R) (c : cls) : result bool :=
  do i0 <- pyget (members c) 0;
  do ex <- pyget ms (Z.of_nat i0);
  if part_differs (m_base m) (m_base ex) then Ok false else
  if negb (Nat.eqb (length (m_peaks m)) (length (m_peaks ex))) then Ok false else
  if zip_any part_differs (m_peaks m) (m_peaks ex) then Ok false else
  if zip_any (differs tol) psq (epsq c) then Ok false else
  if differs tol bsq (ebsq c) then Ok false else Ok true.
(** the loop at 374-415; returns the new classes and the class number, if it found one *)
Fixpoint place (ms : list model) (tol : R) (i : nat) (m : model) (psq : list (list R)) (bsq : list R) (cs : list cls) (c : nat)
    : result (list cls * option nat) :=
  match cs with
  | [] => Ok ([], None)
  | k :: r =>
    do ok <- fits_class ms tol m psq bsq k;
    if ok then Ok (mkCls (members k ++ [i]) (epsq k) (ebsq k) :: r, Some c)
    else do res <- place ms tol i m psq bsq r (S c); Ok (k :: fst res, snd res)
  end.
Definition iset (d : nat -> option nat) (k v : nat) : nat -> option nat := fun k' => if Nat.eqb k' k then Some v else d k'.
(** 366-423 *)
Fixpoint classify_from (ms : list model) (r : list R) (tol : R) (i : nat) (todo : list model) (cs : list cls) (idx : nat -> option nat)
    : result (list cls * (nat -> option nat)) :=
  match todo with
  | [] => Ok (cs, idx)
  | m :: rest =>
    let bsq := square (pvalue (m_base m) r) in
    let psq := map (fun p => square (pvalue p r)) (m_peaks m) in
    do res <- place ms tol i m psq bsq cs 0;
    match snd res with
    | Some c => classify_from ms r tol (S i) rest (fst res) (iset idx i c)
    | None => classify_from ms r tol (S i) rest (fst res ++ [mkCls [i] psq bsq]) (iset idx i (length (fst res)))
    end
  end.

(** sorted(range(len(temp)), key=temp.__getitem__), 443: a stable sort that only asks [<]. *)
Fixpoint insert_sorted (lt : nat -> nat -> result bool) (x : nat) (l : list nat) : result (list nat) :=
  match l with
  | [] => Ok [x]
  | y :: r => do b <- lt x y; if b then Ok (x :: y :: r) else do r' <- insert_sorted lt x r; Ok (y :: r')
  end.
Fixpoint sort_onto (lt : nat -> nat -> result bool) (l acc : list nat) : result (list nat) :=
  match l with [] => Ok acc | x :: r => do acc' <- insert_sorted lt x acc; sort_onto lt r acc' end.
Definition key_lt (temp : list evaluator) (i j : nat) : result bool :=
  do a <- pyget temp (Z.of_nat i); do b <- pyget temp (Z.of_nat j); ev_lt a b.
(** 434-446 *)
Definition sort_class (a : list evaluator) (c : list nat) : result (list nat) :=
  do temp <- map_result (fun i => pyget a (Z.of_nat i)) c;
  do best <- sort_onto (key_lt temp) (seq 0 (length temp)) [];
  map_result (fun b => pyget c (Z.of_nat b)) best.
Definition makesortedclasses (dgs : list R) (a : dict (list evaluator)) (cs : list (list nat)) :=
  tabulate (fun dg => map_result (fun c => do l <- dget a dg; sort_class l c) cs) dgs dempty.
(** 448-471 *)
Definition best_stats (a : dict (list evaluator)) (sc : dict (list (list nat))) (dg : R) : result (list R) :=
  do cs <- dget sc dg;
  do best <- map_result (fun c => pyget c (-1)) cs;
  do l <- dget a dg;
  do es <- map_result (fun b => pyget l (Z.of_nat b)) best;
  stats es.
Definition makeclassweights (dgs : list R) a sc := tabulate (fun dg => do s <- best_stats a sc dg; akaikeweights s) dgs dempty.
Definition makeclassprobs (dgs : list R) a sc := tabulate (fun dg => do s <- best_stats a sc dg; akaikeprobs s) dgs dempty.

Definition classify (s : mms) (r : list R) (tol : R) : result mms :=
  do res <- classify_from (results s) r tol 0 (results s) [] (fun _ => None);
  let cs := map members (fst res) in
  do sc <- makesortedclasses (dgs s) (aics s) cs;
  do w <- makeclassweights (dgs s) (aics s) sc;
  do p <- makeclassprobs (dgs s) (aics s) sc;
  do sp <- makesortedprobs (dgs s) p;
  Ok (mkMms (results s) (dgs s) cs (snd res) (Some tol) (aics s) (aicweights s) (aicprobs s) (sortedprobs s) w p sp sc).

(** *** Queries *)
(** dg_key, 473-486; numpy's argmin: the first minimum, ValueError if empty. *)
Fixpoint argmin_from (best : R) (bi i : nat) (l : list R) : nat :=
  match l with [] => bi | v :: r => if Rltb v best then argmin_from v i (S i) r else argmin_from best bi (S i) r end.
Definition argmin (l : list R) : result nat := match l with [] => Err ValueError | v :: r => Ok (argmin_from v 0 1 r) end.
Definition argmax (l : list R) : result nat := argmin (map Ropp l).
Definition dg_key (s : mms) (dg : R) : result R :=
  do i <- argmin (map (fun v => Rabs (v - dg)) (dgs s)); pyget (dgs s) (Z.of_nat i).

(** np.unique: sorted, without repetitions. *)
Fixpoint insert_unique (x : nat) (l : list nat) : list nat :=
  match l with [] => [x] | y :: r => if Nat.ltb x y then x :: l else if Nat.eqb x y then l else y :: insert_unique x r end.
Definition unique (l : list nat) : list nat := fold_right insert_unique [] l.
Definition or_default (s : mms) (gs : option (list R)) : list R := match gs with None => dgs s | Some l => l end.
(** 488-527 *)
Definition best_class (s : mms) (dg : R) : result nat := do l <- dget (sortedclassprobs s) dg; pyget l (-1).
Definition bestclasses (s : mms) (gs : option (list R)) : result (list nat) :=
  do l <- map_result (best_class s) (or_default s gs); Ok (unique l).
Definition best_model (s : mms) (dg : R) : result nat :=
  do c <- best_class s dg; do cs <- dget (sortedclasses s) dg; do l <- pyget cs (Z.of_nat c); pyget l (-1).
Definition bestmodels (s : mms) (gs : option (list R)) : result (list nat) :=
  do l <- map_result (best_model s) (or_default s gs); Ok (unique l).
(** classbestdgs, 529-550: loops over self.dgs, not over its argument. *)
Fixpoint filter_result {A} (f : A -> result bool) (l : list A) : result (list A) :=
  match l with [] => Ok [] | a :: r => do b <- f a; do r' <- filter_result f r; Ok (if b then a :: r' else r') end.
Definition classbestdgs (s : mms) (c : nat) (gs : option (list R)) : result (list R) :=
  filter_result (fun dg => do b <- best_class s dg; Ok (Nat.eqb b c)) (dgs s).
Definition dict_nat (d : nat -> option nat) (k : nat) : result nat := match d k with Some v => Ok v | None => Err KeyError end.
(** modelbestdgs, 552-576 *)
Definition modelbestdgs (s : mms) (m : nat) (gs : option (list R)) : result (list R) :=
  do c <- dict_nat (classes_idx s) m;
  do l <- classbestdgs s c gs;
  filter_result (fun dg => do cs <- dget (sortedclasses s) dg; do k <- pyget cs (Z.of_nat c); do b <- pyget k (-1); Ok (Nat.eqb b m)) l.

(** Keyword arguments: None is absent; [k_cls = Some None] is cls=None. *)
Record kwds := mkKwds { k_corder : option Z; k_morder : option Z; k_cls : option (option Z) }.
Definition no_kwds := mkKwds None None None.
Definition order (o : option Z) : Z := match o with None => 0%Z | Some v => v end.
(** get_class, 799-817 (other keywords are accepted and ignored) *)
Definition get_class (s : mms) (dg : R) (k : kwds) : result nat :=
  do l <- dget (sortedclassprobs s) dg; pyget l (-1 - order (k_corder k)).
(** get_model, 764-797; only corder is passed on to get_class *)
Definition get_model (s : mms) (dg : R) (k : kwds) : result nat :=
  do c <- (match k_cls k with
           | Some c => Ok c
           | None => do c <- get_class s dg (mkKwds (Some (order (k_corder k))) None None); Ok (Some (Z.of_nat c))
           end);
  match c with
  | None => do l <- dget (sortedprobs s) dg; pyget l (-1 - order (k_morder k))
  | Some c => do cs <- dget (sortedclasses s) dg; do l <- pyget cs c; pyget l (-1 - order (k_morder k))
  end.
(** get_prob, 819-845 *)
Definition get_prob (s : mms) (dg : R) (k : kwds) : result R :=
  do i <- get_model s dg k;
  match k_cls k with
  | Some None => do l <- dget (aicprobs s) dg; pyget l (Z.of_nat i)
  | _ => do c <- dict_nat (classes_idx s) i; do l <- dget (classprobs s) dg; pyget l (Z.of_nat c)
  end.
(** get_nfree, 847-870 *)
Definition get_nfree (s : mms) (dg : R) (k : kwds) : result nat :=
  do i <- get_model s dg k; do m <- pyget (results s) (Z.of_nat i); Ok (m_free m + pnfree (m_base m))%nat.
(** get_aic, 872-892 *)
Definition get_aic (s : mms) (dg : R) (k : kwds) : result R :=
  do i <- get_model s dg k; do l <- dget (aics s) dg; do e <- pyget l (Z.of_nat i);
  match stat e with Some v => Ok v | None => Err TypeError end.

(** get, 894-929: the dispatch dictionary has "dg"; its entry is a function of one
    argument, so any keyword is a TypeError. *)
Inductive gval := GNat (n : nat) | GReal (r : R).
Definition is_no_kwds (k : kwds) : bool := match k with mkKwds None None None => true | _ => false end.
Open Scope string_scope.
Definition get1 (s : mms) (dg : R) (k : kwds) (a : string) : result gval :=
  if String.eqb a "aic" then do v <- get_aic s dg k; Ok (GReal v) else
  if String.eqb a "class" then do v <- get_class s dg k; Ok (GNat v) else
  if String.eqb a "dg" then (if is_no_kwds k then Ok (GReal dg) else Err TypeError) else
  if String.eqb a "model" then do v <- get_model s dg k; Ok (GNat v) else
  if String.eqb a "nfree" then do v <- get_nfree s dg k; Ok (GNat v) else
  if String.eqb a "prob" then do v <- get_prob s dg k; Ok (GReal v) else Err KeyError.
Definition get (s : mms) (dg : R) (args : list string) (k : kwds) : result (list gval) := map_result (get1 s dg k) args.

(** 931-1004 *)
Definition maxprobdG_byclass (s : mms) (m : nat) : result R :=
  do c <- dict_nat (classes_idx s) m;
  do probs <- map_result (fun dg => do l <- dget (classprobs s) dg; pyget l (Z.of_nat c)) (dgs s);
  do i <- argmax probs; pyget (dgs s) (Z.of_nat i).
Definition maxprobdG_bymodel (s : mms) (m : nat) : result R :=
  do probs <- map_result (fun dg => do l <- dget (aicprobs s) dg; pyget l (Z.of_nat m)) (dgs s);
  do i <- argmax probs; pyget (dgs s) (Z.of_nat i).
Definition maxprobmodel_byclass (s : mms) (dg : R) : result nat := best_model s dg.
Definition maxprobmodel_bymodel (s : mms) (dg : R) : result nat := do l <- dget (sortedprobs s) dg; pyget l (-1).
End MultiModel.

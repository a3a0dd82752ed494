(** Properties of the filter of the tracer: C224, C225. *)
From Verif Require Import Prelude Tracer TraceFilter.
Open Scope Z_scope.

Section Props.
Context {A T : Type}.
Notation tok := (tok A).
Notation expr := (expr A).

(** ** The parser *)
Lemma parse_shrinks : forall n lv (l : list tok) x r, parse n lv l = Some (x, r) -> (length r < length l)%nat.
Proof.
  induction n as [|n IH]; intros lv l x r H; [discriminate|]. cbn [parse] in H. destruct lv.
  - destruct (parse n LOr l) as [[y s]|] eqn:E; [|discriminate]. apply IH in E.
    destruct s as [|[a| | | | | | |] s]; try (injection H as -> <-; assumption).
    destruct (parse n LOr s) as [[c u]|] eqn:E1; [|discriminate]. apply IH in E1.
    destruct u as [|[a| | | | | | |] u]; try discriminate.
    destruct (parse n LTest u) as [[z v]|] eqn:E2; [|discriminate]. apply IH in E2. injection H as _ <-. cbn [length] in *. lia.
  - destruct (parse n LAnd l) as [[y s]|] eqn:E; [|discriminate]. apply IH in E.
    destruct s as [|[a| | | | | | |] s]; try (injection H as -> <-; assumption).
    destruct (parse n LOr s) as [[c u]|] eqn:E1; [|discriminate]. apply IH in E1. injection H as _ <-. cbn [length] in *. lia.
  - destruct (parse n LNot l) as [[y s]|] eqn:E; [|discriminate]. apply IH in E.
    destruct s as [|[a| | | | | | |] s]; try (injection H as -> <-; assumption).
    destruct (parse n LAnd s) as [[c u]|] eqn:E1; [|discriminate]. apply IH in E1. injection H as _ <-. cbn [length] in *. lia.
  - destruct l as [|[a| | | | | | |] l]; try discriminate.
    + injection H as _ <-. cbn. lia.
    + destruct (parse n LNot l) as [[c u]|] eqn:E1; [|discriminate]. apply IH in E1. injection H as _ <-. cbn [length] in *. lia.
    + destruct (parse n LTest l) as [[c u]|] eqn:E1; [|discriminate]. apply IH in E1.
      destruct u as [|[a| | | | | | |] u]; try discriminate. injection H as _ <-. cbn [length] in *. lia.
Qed.

Definition rank (lv : level) : nat := match lv with LTest => 4 | LOr => 3 | LAnd => 2 | LNot => 1 end.
(** The depth bound is never reached. *)
Lemma parse_enough : forall n lv (l : list tok), (4 * length l + rank lv <= n)%nat -> parse (S n) lv l = parse n lv l.
Proof.
  assert (G : forall n lv (l : list tok) m, (4 * length l + rank lv <= n)%nat -> (n <= m)%nat -> parse m lv l = parse n lv l).
  { induction n as [|n IH]; intros lv l m H M; [destruct lv; cbn in H; lia|]. destruct m as [|m]; [lia|].
    cbn [parse]. destruct lv; cbn [rank] in H.
    - rewrite (IH LOr l m) by (cbn [rank]; lia). destruct (parse n LOr l) as [[x r]|] eqn:E; [|reflexivity].
      apply parse_shrinks in E. destruct r as [|[a| | | | | | |] r]; try reflexivity. cbn [length] in E.
      rewrite (IH LOr r m) by (cbn [rank]; lia). destruct (parse n LOr r) as [[c u]|] eqn:E1; [|reflexivity].
      apply parse_shrinks in E1. destruct u as [|[a| | | | | | |] u]; try reflexivity. cbn [length] in E1.
      rewrite (IH LTest u m) by (cbn [rank]; lia). reflexivity.
    - rewrite (IH LAnd l m) by (cbn [rank]; lia). destruct (parse n LAnd l) as [[x r]|] eqn:E; [|reflexivity].
      apply parse_shrinks in E. destruct r as [|[a| | | | | | |] r]; try reflexivity. cbn [length] in E.
      rewrite (IH LOr r m) by (cbn [rank]; lia). reflexivity.
    - rewrite (IH LNot l m) by (cbn [rank]; lia). destruct (parse n LNot l) as [[x r]|] eqn:E; [|reflexivity].
      apply parse_shrinks in E. destruct r as [|[a| | | | | | |] r]; try reflexivity. cbn [length] in E.
      rewrite (IH LAnd r m) by (cbn [rank]; lia). reflexivity.
    - destruct l as [|[a| | | | | | |] l]; try reflexivity; cbn [length] in H.
      + rewrite (IH LNot l m) by (cbn [rank]; lia). reflexivity.
      + rewrite (IH LTest l m) by (cbn [rank]; lia). reflexivity. }
  intros n lv l H. apply G; lia.
Qed.

Lemma parse_more n lv (l : list tok) p : parse n lv l = Some p -> forall m, (n <= m)%nat -> parse m lv l = Some p.
Proof.
  revert lv l p. induction n as [|n IH]; intros lv l p H m M; [discriminate|]. destruct m as [|m]; [lia|]. assert (M' : (n <= m)%nat) by lia.
  cbn [parse] in *. destruct lv.
  - destruct (parse n LOr l) as [[x r]|] eqn:E; [|discriminate]. rewrite (IH _ _ _ E m M').
    destruct r as [|[a| | | | | | |] r]; try exact H.
    destruct (parse n LOr r) as [[c u]|] eqn:E1; [|discriminate]. rewrite (IH _ _ _ E1 m M').
    destruct u as [|[a| | | | | | |] u]; try exact H.
    destruct (parse n LTest u) as [[z v]|] eqn:E2; [|discriminate]. rewrite (IH _ _ _ E2 m M'). exact H.
  - destruct (parse n LAnd l) as [[x r]|] eqn:E; [|discriminate]. rewrite (IH _ _ _ E m M').
    destruct r as [|[a| | | | | | |] r]; try exact H.
    destruct (parse n LOr r) as [[c u]|] eqn:E1; [|discriminate]. rewrite (IH _ _ _ E1 m M'). exact H.
  - destruct (parse n LNot l) as [[x r]|] eqn:E; [|discriminate]. rewrite (IH _ _ _ E m M').
    destruct r as [|[a| | | | | | |] r]; try exact H.
    destruct (parse n LAnd r) as [[c u]|] eqn:E1; [|discriminate]. rewrite (IH _ _ _ E1 m M'). exact H.
  - destruct l as [|[a| | | | | | |] l]; try exact H.
    + destruct (parse n LNot l) as [[c u]|] eqn:E1; [|discriminate]. rewrite (IH _ _ _ E1 m M'). exact H.
    + destruct (parse n LTest l) as [[c u]|] eqn:E1; [|discriminate]. rewrite (IH _ _ _ E1 m M'). exact H.
Qed.

(** What was read stays read when a closing parenthesis follows. *)
Lemma parse_closed n lv (l : list tok) x r t : parse n lv l = Some (x, r) -> parse n lv (l ++ KRpar :: t) = Some (x, r ++ KRpar :: t).
Proof.
  revert lv l x r. induction n as [|n IH]; intros lv l x r H; [discriminate|].
  cbn [parse] in *. destruct lv.
  - destruct (parse n LOr l) as [[y s]|] eqn:E; [|discriminate]. rewrite (IH _ _ _ _ E).
    destruct s as [|[a| | | | | | |] s]; cbn [app]; try (injection H as <- <-; reflexivity).
    destruct (parse n LOr s) as [[c u]|] eqn:E1; [|discriminate]. rewrite (IH _ _ _ _ E1).
    destruct u as [|[a| | | | | | |] u]; try discriminate. cbn [app].
    destruct (parse n LTest u) as [[z v]|] eqn:E2; [|discriminate]. rewrite (IH _ _ _ _ E2). injection H as <- <-. reflexivity.
  - destruct (parse n LAnd l) as [[y s]|] eqn:E; [|discriminate]. rewrite (IH _ _ _ _ E).
    destruct s as [|[a| | | | | | |] s]; cbn [app]; try (injection H as <- <-; reflexivity).
    destruct (parse n LOr s) as [[c u]|] eqn:E1; [|discriminate]. rewrite (IH _ _ _ _ E1). injection H as <- <-. reflexivity.
  - destruct (parse n LNot l) as [[y s]|] eqn:E; [|discriminate]. rewrite (IH _ _ _ _ E).
    destruct s as [|[a| | | | | | |] s]; cbn [app]; try (injection H as <- <-; reflexivity).
    destruct (parse n LAnd s) as [[c u]|] eqn:E1; [|discriminate]. rewrite (IH _ _ _ _ E1). injection H as <- <-. reflexivity.
  - destruct l as [|[a| | | | | | |] l]; try discriminate; cbn [app].
    + injection H as <- <-. reflexivity.
    + destruct (parse n LNot l) as [[c u]|] eqn:E1; [|discriminate]. rewrite (IH _ _ _ _ E1). injection H as <- <-. reflexivity.
    + destruct (parse n LTest l) as [[c u]|] eqn:E1; [|discriminate]. rewrite (IH _ _ _ _ E1).
      destruct u as [|[a| | | | | | |] u]; try discriminate. cbn [app]. injection H as <- <-. reflexivity.
Qed.

Lemma compile_parse (f : list tok) x : compile f = Some x -> forall m, (4 * length f + 5 <= m)%nat -> parse m LTest f = Some (x, []).
Proof.
  unfold compile. destruct (parse (4 * length f + 5) LTest f) as [[y [|t r]]|] eqn:E; try discriminate. intros H m M. injection H as <-.
  exact (parse_more _ _ _ _ E m M).
Qed.
Lemma paren_not (f : list tok) x t m : compile f = Some x -> (4 * length f + 6 <= m)%nat -> parse m LNot (paren f ++ t) = Some (x, t).
Proof.
  intros C M. destruct m as [|m]; [lia|]. unfold paren. cbn [app parse]. rewrite <- app_assoc. cbn [app].
  rewrite (parse_closed _ _ _ _ _ _ (compile_parse f x C m ltac:(lia))). reflexivity.
Qed.
(** The value of all expressions, from left to right *)
Fixpoint conj (xs : list expr) : option expr :=
  match xs with [] => None | [x] => Some x | x :: r => match conj r with Some y => Some (EAnd x y) | None => None end end.
Lemma joined_and fs xs : Forall2 (fun f x => compile f = Some x) fs xs -> forall e m, conj xs = Some e -> (4 * length (joined fs) + 4 <= m)%nat ->
  parse m LAnd (joined fs) = Some (e, []).
Proof.
  induction 1 as [|f x fs xs C F IH]; intros e m E M; [discriminate|].
  destruct m as [|m]; [lia|]. destruct F as [|g y gs ys Cg Fg].
  - injection E as <-. cbn [joined] in *. rewrite <- (app_nil_r (paren f)). cbn [parse]. rewrite (paren_not f x [] m C); [reflexivity|].
    unfold paren in M. cbn [length] in M. rewrite app_length in M. cbn [length] in M. lia.
  - change (conj (x :: y :: ys)) with (match conj (y :: ys) with Some z => Some (EAnd x z) | None => None end) in E.
    change (joined (f :: g :: gs)) with (paren f ++ KAnd :: joined (g :: gs)) in *.
    destruct (conj (y :: ys)) as [z|] eqn:Z; [|discriminate]. injection E as <-.
    rewrite app_length in M. cbn [length] in M. unfold paren in M at 1. cbn [length] in M. rewrite app_length in M. cbn [length] in M.
    change (parse (S m) LAnd (paren f ++ KAnd :: joined (g :: gs))) with
      (match parse m LNot (paren f ++ KAnd :: joined (g :: gs)) with
       | Some (x, KAnd :: r) => match parse m LAnd r with Some (y, r') => Some (EAnd x y, r') | None => None end
       | o => o end).
    rewrite (paren_not f x _ m C) by lia. rewrite (IH z m eq_refl) by lia. reflexivity.
Qed.
Lemma compile_joined fs xs : fs <> [] -> Forall2 (fun f x => compile f = Some x) fs xs -> exists e, conj xs = Some e /\ compile (joined fs) = Some e.
Proof.
  intros N F.
  assert (X : exists e, conj xs = Some e).
  { clear - N F. destruct F as [|f x fs xs C F]; [congruence|]. clear - F.
    revert x. induction F as [|g y gs ys C F IH]; intros x; [now exists x|]. destruct (IH y) as [e E]. exists (EAnd x e). cbn [conj] in *. now rewrite E. }
  destruct X as [e E]. exists e. split; [exact E|]. unfold compile.
  set (k := length (joined fs)). replace (4 * k + 5)%nat with (S (S (4 * k + 3))) by lia.
  assert (O : parse (S (4 * k + 3)) LOr (joined fs) = Some (e, [])).
  { assert (L : (0 < k)%nat) by (unfold k; destruct fs as [|f [|g r]]; [congruence| |]; unfold joined, paren; cbn; lia).
    assert (H : parse (S (4 * k + 3)) LAnd (joined fs) = Some (e, [])) by (apply (joined_and fs xs F); [exact E|unfold k; lia]).
    rewrite parse_enough in H by (cbn [rank]; unfold k; lia).
    change (parse (S (4 * k + 3)) LOr (joined fs)) with
      (match parse (4 * k + 3) LAnd (joined fs) with
       | Some (x, KOr :: r) => match parse (4 * k + 3) LOr r with Some (y, r') => Some (EOr x y, r') | None => None end
       | o => o end). now rewrite H. }
  change (parse (S (S (4 * k + 3))) LTest (joined fs)) with
    (match parse (S (4 * k + 3)) LOr (joined fs) with
     | Some (x, KIf :: r) =>
        match parse (S (4 * k + 3)) LOr r with
        | Some (c, KElse :: r') => match parse (S (4 * k + 3)) LTest r' with Some (y, r'') => Some (ECond c x y, r'') | None => None end
        | _ => None
        end
     | o => o end). now rewrite O.
Qed.

Section Env.
Variable env : A -> result bool.
Lemma eval_all xs e : conj xs = Some e -> (forall x, In x xs -> eval env x = Ok true) -> eval env e = Ok true.
Proof.
  revert e. induction xs as [|x xs IH]; intros e E H; [discriminate|]. destruct xs as [|y ys].
  - injection E as <-. apply H. now left.
  - change (conj (x :: y :: ys)) with (match conj (y :: ys) with Some z => Some (EAnd x z) | None => None end) in E.
    destruct (conj (y :: ys)) as [z|]; [|discriminate]. injection E as <-. cbn [eval]. rewrite (H x) by now left. cbn [bind].
    apply IH; [reflexivity|]. intros u U. apply H. now right.
Qed.
Lemma eval_first xs e i v : conj xs = Some e -> v <> Ok true ->
  (forall j x, (j < i)%nat -> nth_error xs j = Some x -> eval env x = Ok true) ->
  (exists x, nth_error xs i = Some x /\ eval env x = v) -> eval env e = v.
Proof.
  revert e i. induction xs as [|x xs IH]; intros e i E V B [z [Hz Ez]]; [discriminate|]. destruct xs as [|y ys].
  - injection E as <-. destruct i as [|i]; [injection Hz as <-; exact Ez|]. destruct i; discriminate.
  - change (conj (x :: y :: ys)) with (match conj (y :: ys) with Some u => Some (EAnd x u) | None => None end) in E.
    destruct (conj (y :: ys)) as [u|]; [|discriminate]. injection E as <-. cbn [eval]. destruct i as [|i].
    + injection Hz as <-. rewrite Ez. destruct v as [[|]|]; [congruence| |]; reflexivity.
    + rewrite (B 0%nat x) by (cbn; auto with arith). cbn [bind]. apply (IH u i eq_refl V).
      * intros j w J W. apply (B (S j) w); [lia|exact W].
      * exists z. split; [exact Hz|exact Ez].
Qed.
End Env.

(** ** C224 *)
(** A text is an expression of its own, with this value (or this exception) now. *)
Definition well_formed_text (f : list tok) : Prop := compile f <> None.
Definition text_value (env : A -> result bool) (f : list tok) (v : result bool) : Prop := exists x, compile f = Some x /\ eval env x = v.

Lemma all_compiled fs : (forall f, In f fs -> well_formed_text f) -> exists xs, Forall2 (fun f x => compile f = Some x) fs xs.
Proof.
  induction fs as [|f fs IH]; intros H; [exists []; constructor|]. destruct IH as [xs F]; [intros g G; apply H; now right|].
  destruct (compile f) as [x|] eqn:E; [|exfalso; apply (H f); [now left|exact E]]. exists (x :: xs). now constructor.
Qed.
Lemma forall2_nth (fs : list (list tok)) xs : Forall2 (fun f x => compile f = Some x) fs xs -> forall i x, nth_error xs i = Some x ->
  exists f, nth_error fs i = Some f /\ compile f = Some x.
Proof.
  induction 1 as [|f x fs xs C F IH]; intros i z H; [destruct i; discriminate|]. destruct i as [|i]; [injection H as <-; now exists f|]. exact (IH i z H).
Qed.
Lemma forall2_nth' (fs : list (list tok)) xs : Forall2 (fun f x => compile f = Some x) fs xs -> forall i f, nth_error fs i = Some f ->
  exists x, nth_error xs i = Some x /\ compile f = Some x.
Proof.
  induction 1 as [|f x fs xs C F IH]; intros i z H; [destruct i; discriminate|]. destruct i as [|i]; [injection H as <-; now exists x|]. exact (IH i z H).
Qed.

Theorem C224_filter :
  forall (s : ftracer A T) fs, fs <> [] -> (forall f, In f fs -> well_formed_text f) ->
    exists s', setfilter s fs = Some s' /\ f_state s' = f_state s /\
      forall env make,
        (* a trace if all expressions are true *)
        ((forall f, In f fs -> text_value env f (Ok true)) ->
           exists s2, femit env s' make = (s2, Ok tt) /\ f_filter s2 = f_filter s' /\
             f_state s2 = mkTr (t_call (f_state s)) (t_counter (f_state s) + 1) (t_recursion (f_state s))
                               (t_trace (f_state s) ++ [make (t_recursion (f_state s)) (t_counter (f_state s))])) /\
        (* otherwise the first expression that is not true decides: nothing is traced *)
        (forall i f v, nth_error fs i = Some f -> text_value env f v -> v <> Ok true ->
           (forall j g, (j < i)%nat -> nth_error fs j = Some g -> text_value env g (Ok true)) ->
           femit env s' make = (s', match v with Ok _ => Ok tt | Err e => Err e end)).
Proof.
  intros s fs N W. destruct (all_compiled fs W) as [xs F]. destruct (compile_joined fs xs N F) as [e [E C]].
  exists (mkFt e (f_state s)). unfold setfilter. rewrite C. split; [reflexivity|]. split; [reflexivity|]. intros env make.
  unfold femit. cbn [f_filter f_state]. split.
  - intros H. rewrite (eval_all env xs e E).
    + eexists. split; [reflexivity|]. split; reflexivity.
    + intros x X. apply In_nth_error in X. destruct X as [i X]. destruct (forall2_nth fs xs F i x X) as [f [Hf Cf]].
      destruct (H f (nth_error_In _ _ Hf)) as [y [Y V]]. congruence.
  - intros i f v Hf [x [Cx Vx]] NV B. destruct (forall2_nth' fs xs F i f Hf) as [x' [X' C']]. assert (x' = x) by congruence; subst x'.
    rewrite (eval_first env xs e i v E NV); [| |exists x; now split].
    + destruct v as [[|]|er]; [congruence| |reflexivity]. unfold emit. reflexivity.
    + intros j y J Y. destruct (forall2_nth fs xs F j y Y) as [g [Hg Cg]]. destruct (B j g J Hg) as [z [Cz Vz]]. congruence.
Qed.

(** Without a filter nothing is ever traced; a new tracer has no traces. *)
Theorem C224_default_never_traces :
  forall (false_ : A) env, env false_ = Ok false ->
    exists s : ftracer A T, new_ftracer false_ None = Some s /\ t_trace (f_state s) = [] /\
      forall (st : tracer T) make, femit env (mkFt (f_filter s) st) make = (mkFt (f_filter s) st, Ok tt).
Proof.
  intros fa env H. exists (mkFt (EAtom fa) new_tracer). split; [reflexivity|]. split; [reflexivity|].
  intros st make. unfold femit. cbn [f_filter eval f_state]. rewrite H. reflexivity.
Qed.

(** A list of well-formed texts given to settracer acts as in C224_filter. *)
Theorem C224_settracer :
  forall (s : ftracer A T) false_ fs s', setfilter s fs = Some s' -> new_ftracer (T:=T) false_ (Some fs) = Some (mkFt (f_filter s') new_tracer).
Proof. intros s fa fs s'. unfold setfilter, new_ftracer. destruct (compile (joined fs)); [|discriminate]. now injection 1 as <-. Qed.

(** ** C225 *)
(** An expression of the filter can only restrict; what is not an expression is refused.
    Refuted: a text with unbalanced parentheses can be accepted and undo the others. *)
Theorem C225_unbalanced_text_refuted :
  forall (s : ftracer A T) (a b c : A),
    let text := [KAtom a; KRpar; KOr; KLpar; KAtom b] in
    ~ well_formed_text text /\ well_formed_text [KAtom c] /\
    exists s', setfilter s [[KAtom c]; text] = Some s' /\
      forall env make, env c = Ok false -> env b = Ok true ->
        text_value env [KAtom c] (Ok false) /\
        exists s2, femit env s' make = (s2, Ok tt) /\
          t_trace (f_state s2) = t_trace (f_state s) ++ [make (t_recursion (f_state s)) (t_counter (f_state s))].
Proof.
  intros s a b c text. split; [unfold well_formed_text, text; vm_compute; congruence|]. split; [unfold well_formed_text; vm_compute; congruence|].
  exists (mkFt (EOr (EAnd (EAtom c) (EAtom a)) (EAtom b)) (f_state s)). split; [reflexivity|].
  intros env make C B. split; [exists (EAtom c); split; [reflexivity|exact C]|].
  unfold femit. cbn [f_filter eval f_state]. rewrite C. cbn [bind]. rewrite B. eexists. split; [reflexivity|]. reflexivity.
Qed.
(** An empty list of conditions does not mean "always": it is a SyntaxError. *)
Theorem C225_empty_list_refuted : forall (s : ftracer A T) false_, setfilter s [] = None /\ new_ftracer false_ (Some []) = @None (ftracer A T).
Proof. intros s fa. split; reflexivity. Qed.
End Props.

(** *** A concrete case: "counter > 5" and "recursion == 1 or not full" *)
Example C224_nonvacuous :
  let fs := [[KAtom 0%nat]; [KAtom 1%nat; KOr; KNot; KAtom 2%nat]] in
  (forall f, In f fs -> well_formed_text f) /\
  (forall f, In f fs -> text_value (fun a => Ok (Nat.leb a 1)) f (Ok true)) /\
  text_value (fun a => match a with 0%nat => Ok true | 1%nat => Ok false | _ => Err KeyError end) [KAtom 1%nat; KOr; KNot; KAtom 2%nat] (Err KeyError).
Proof.
  intros fs. split; [|split].
  - intros f [<-|[<-|[]]]; unfold well_formed_text; vm_compute; congruence.
  - intros f [<-|[<-|[]]]; [exists (EAtom 0%nat)|exists (EOr (EAtom 1%nat) (ENot (EAtom 2%nat)))]; split; reflexivity.
  - exists (EOr (EAtom 1%nat) (ENot (EAtom 2%nat))). split; reflexivity.
Qed.

Print Assumptions C224_filter.
Print Assumptions C224_default_never_traces.
Print Assumptions C224_settracer.
Print Assumptions C225_unbalanced_text_refuted.
Print Assumptions C225_empty_list_refuted.

(** Property C200: what is written by PDFPeakExtraction.writestr is found by the steps of
    PeakExtraction.readstr. *)
From Coq Require Import String Ascii DecimalString DecimalNat DecimalFacts Permutation.
From Verif Require Import Prelude Functions FunctionsProofs FunctionsProps Tracer TracerProps Serial SerialProps Summary SummaryProps ExtractText ExtractTextProps.
Open Scope string_scope.

(** ** Indices *)
Lemma index_text n : as_index (show_index n) = Some n.
Proof.
  unfold as_index, show_index. rewrite NilZero.usu; [now rewrite Unsigned.of_to|]. rewrite <- (Unsigned.of_to n), Unsigned.to_of. unfold Decimal.unorm. destruct (Decimal.nzhead _); discriminate.
Qed.
Lemma index_digit n : exists c r, show_index n = String c r /\ isdigit c = true.
Proof. unfold show_index. destruct (Nat.to_uint n); cbn; eexists _, _; (split; [reflexivity|reflexivity]). Qed.

(** ** Lines that start no section *)
Definition plain (l : string) : Prop := match l with "" => True | String c _ => Ascii.eqb c "#" = false end.
Lemma plain_no_section name l : plain l -> is_section name l = false.
Proof. destruct l as [|c l]; [reflexivity|]. intros H. now apply letter_no_section. Qed.
Lemma plain_no_head name l : plain l -> num_head name l = false.
Proof. destruct l as [|c l]; [reflexivity|]. intros H. unfold num_head. cbn [after_hashes]. cbn in H. now rewrite H. Qed.
Lemma split_at name pre h post : Forall (fun l => is_section name l = false) pre -> is_section name h = true -> split_section name (pre ++ h :: post)%list = Some (pre, post).
Proof.
  intros H E. induction H as [|l pre HL _ IH]; cbn [app split_section]; [now rewrite E|]. now rewrite HL, IH.
Qed.
Lemma cut_at name pre h post : Forall (fun l => is_section name l = false) pre -> is_section name h = true -> cut_section name (pre ++ h :: post)%list = (pre, Some post).
Proof. intros H E. unfold cut_section. now rewrite split_at. Qed.

(** ** Pieces *)
Lemma drop_end_app ls : drop_blank_lines_at_end (ls ++ [""])%list = drop_blank_lines_at_end ls.
Proof. induction ls as [|l r IH]; [reflexivity|]. cbn [app drop_blank_lines_at_end]. now rewrite IH. Qed.
Lemma drop_end_keep ls l : l <> "" -> drop_blank_lines_at_end (ls ++ [l])%list = (ls ++ [l])%list.
Proof.
  intros N. induction ls as [|x r IH]; cbn [app drop_blank_lines_at_end]; [now destruct l|]. rewrite IH. destruct (r ++ [l])%list eqn:E; [now destruct r|reflexivity].
Qed.
(** a piece: its head and its lines *)
Fixpoint chunks (cs : list (string * list string)) : list string :=
  match cs with [] => [] | (h, fl) :: r => (h :: fl ++ "" :: chunks r)%list end.
Fixpoint bodies (cs : list (string * list string)) : list (list string) :=
  match cs with [] => [] | [(_, fl)] => [fl] | (_, fl) :: r => ((fl ++ [""]) :: bodies r)%list end.
Definition good_chunk (head : string -> bool) (c : string * list string) : Prop :=
  head (fst c) = true /\ fst c <> "" /\ exists a l, snd c = (a ++ [l])%list /\ l <> "" /\ (forall x, In x (snd c) -> x <> "" /\ plain x /\ head x = false).
Lemma pieces_body head fl rest b ps : (forall x, In x fl -> head x = false) -> pieces head rest = (b, ps) -> pieces head (fl ++ rest)%list = ((fl ++ b)%list, ps).
Proof. intros H E. induction fl as [|x r IH]; [exact E|]. cbn [app pieces]. rewrite IH by (intros; apply H; now right). now rewrite (H x (or_introl eq_refl)). Qed.
Lemma skip_plain fl b : fl <> [] -> (forall x, In x fl -> x <> "" /\ plain x) -> skip_comments (fl ++ b)%list = (fl ++ b)%list.
Proof. intros N H. destruct fl as [|[|c x] r]; [contradiction|destruct (H "" (or_introl eq_refl)); contradiction|]. destruct (H _ (or_introl eq_refl)) as (_ & P). cbn in P. cbn [app skip_comments]. now rewrite P. Qed.
Lemma chunks_pieces head cs : head "" = false -> Forall (good_chunk head) cs -> pieces head (strip_lines (chunks cs)) = ([], bodies cs).
Proof.
  intros HB G.
  assert (E : strip_lines (chunks cs) = drop_blank_lines_at_end (chunks cs)).
  { unfold strip_lines. f_equal. destruct G as [|[h fl] r (_ & N & _)]; [reflexivity|]. cbn in N |- *. now destruct h. }
  rewrite E. clear E. induction G as [|[h fl] r GC G IH]; [reflexivity|]. destruct GC as (HH & NH & a & l & EL & NL & P). cbn [fst snd] in *.
  assert (NF : fl <> []) by (intros C; rewrite C in EL; now destruct a).
  destruct r as [|c2 r].
  - cbn [chunks bodies]. rewrite app_comm_cons, drop_end_app, EL, app_comm_cons, drop_end_keep by exact NL. cbn [app pieces]. rewrite <- EL.
    rewrite <- (app_nil_r fl). rewrite (pieces_body head fl [] [] []) by (try reflexivity; intros x I; apply (P x I)). rewrite HH, skip_plain; [reflexivity|exact NF|intros x I; split; apply (P x I)].
  - change (chunks ((h, fl) :: c2 :: r)) with (h :: fl ++ "" :: chunks (c2 :: r))%list. assert (DE : drop_blank_lines_at_end (h :: fl ++ "" :: chunks (c2 :: r))%list = (h :: fl ++ "" :: drop_blank_lines_at_end (chunks (c2 :: r)))%list).
    { assert (ND : drop_blank_lines_at_end (chunks (c2 :: r)) <> []).
      { intros C. rewrite C in IH. cbn in IH. injection IH as IH. destruct c2 as [h2 fl2]. cbn in IH. destruct r; discriminate. }
      assert (K : forall xs ys, drop_blank_lines_at_end ys <> [] -> drop_blank_lines_at_end (xs ++ ys)%list = (xs ++ drop_blank_lines_at_end ys)%list).
      { intros xs ys H. induction xs as [|x xs IHx]; [reflexivity|]. cbn [app drop_blank_lines_at_end]. rewrite IHx. destruct (xs ++ drop_blank_lines_at_end ys)%list eqn:Z; [|reflexivity]. apply app_eq_nil in Z as [_ Z]. contradiction. }
      change (h :: fl ++ "" :: chunks (c2 :: r))%list with ((h :: fl) ++ [""] ++ chunks (c2 :: r))%list. rewrite app_assoc, K by exact ND. now rewrite <- app_assoc. }
    rewrite DE. cbn [pieces]. rewrite (pieces_body head fl _ [""] (bodies (c2 :: r))).
    + rewrite HH, skip_plain; [reflexivity|exact NF|intros x I; split; apply (P x I)].
    + intros x I. apply (P x I).
    + cbn [pieces]. rewrite IH, HB. reflexivity.
Qed.
(** the texts of the pieces: the lines, with line breaks at the end *)
Definition ends (fl : list string) (t : string) : Prop := t = join newline fl \/ t = join newline fl ++ newline ++ newline.
Lemma texts_of_bodies cs : (forall c, In c cs -> snd c <> []) -> Forall2 ends (map snd cs) (piece_texts (bodies cs)).
Proof.
  induction cs as [|[h fl] r IH]; intros N; [constructor|]. destruct r as [|c2 r].
  - cbn. constructor; [now left|constructor].
  - change (bodies ((h, fl) :: c2 :: r)) with ((fl ++ [""]) :: bodies (c2 :: r))%list.
    assert (NB : bodies (c2 :: r) <> []) by (destruct c2; destruct r; discriminate).
    destruct (bodies (c2 :: r)) as [|b bs] eqn:EB; [contradiction|].
    change (piece_texts ((fl ++ [""]) :: b :: bs)%list) with ((join newline (fl ++ [""])%list ++ newline) :: piece_texts (b :: bs)). cbn [map]. constructor.
    + right. rewrite <- join_newline by (apply (N (h, fl)); now left). now rewrite app_assoc_s.
    + apply IH. intros c I. apply N. now right.
Qed.

(** ** Functions read from pieces *)
Section Functions.
Context {V F : Type}.
Variable repr : V -> string.
Variable eval : string -> result V.
Variables (vnone : V) (vint : Z -> V) (vstr : string -> V).
Variable as_int : V -> option Z.
Variable is_none : V -> bool.
Variable fclass fmodule : F -> string.
Variable fbase : F -> option F.
Variable fmeta : F -> list (string * V).
Variable ftext : V -> string.
Variable feq : F -> F -> bool.
Variable construct : V -> V -> option F -> list (string * V) -> result F.
Notation fun_lines := (fun_lines repr vnone vint vstr fclass fmodule fbase fmeta ftext feq).
Notation fun_writestr := (fun_writestr repr vnone vint vstr fclass fmodule fbase fmeta ftext feq).
Notation fun_factory := (fun_factory eval as_int is_none construct).
Notation write_numbered := (write_numbered repr vnone vint vstr fclass fmodule fbase fmeta ftext feq show_index).
Notation write_funs := (write_funs repr vnone vint vstr fclass fmodule fbase fmeta ftext feq).
Notation read_funs := (read_funs eval as_int is_none construct).
Notation describable := (describable repr eval vstr fclass fmodule fmeta ftext).
Hypothesis NONE : text_of eval (repr vnone) vnone /\ is_none vnone = true.
Hypothesis INT : forall z, text_of eval (repr (vint z)) (vint z) /\ is_none (vint z) = false /\ as_int (vint z) = Some z.
(** eval does not mind a line break at the end. *)
Hypothesis BREAK : forall t v, eval t = Ok v -> eval (t ++ newline) = Ok v.

(** Every line of a function: a keyword, an equals sign and a text. *)
Definition keyed (l : string) : Prop := exists k t, l = k ++ "=" ++ t /\ keyword k /\ k <> "" /\ plain k /\ one_line t /\ no_eq_in_first_word t = true.
Lemma keyed_line l : keyed l -> one_line l /\ l <> "" /\ key_line l <> None.
Proof.
  intros (k & t & -> & K & NK & PK & O & NE). split; [|split].
  - rewrite !one_line_app. split; [now apply keyword_one_line|]. split; [reflexivity|exact O].
  - destruct k; [contradiction|discriminate].
  - rewrite key_line_spec by assumption. discriminate.
Qed.
Lemma keyed_plain l : keyed l -> plain l.
Proof. intros (k & t & -> & K & NK & PK & O & NE). destruct k as [|c k]; [contradiction|]. exact PK. Qed.
(** No keyword starts with a hash sign. *)
Definition plain_keys (f : F) : Prop := forall k v, In (k, v) (fmeta f) -> plain k.
Lemma fun_lines_keyed l f ls : describable f -> plain_keys f -> fun_lines l f = Ok ls -> ls <> [] /\ forall x, In x ls -> keyed x.
Proof.
  intros ((C1 & C2 & C3) & (M1 & M2 & M3) & _ & DK) PK E. unfold Serial.fun_lines in E.
  destruct (match fbase f with None => Ok vnone | Some g => _ end) as [b|] eqn:EB; [|discriminate]. cbn [bind] in E. injection E as <-. split; [discriminate|].
  assert (BT : one_line (repr b) /\ no_eq_in_first_word (repr b) = true).
  { destruct (fbase f) as [g|]; [|injection EB as <-; destruct NONE as ((_ & N) & _); exact N]. destruct (findex feq g l) as [i|]; [|discriminate]. injection EB as <-. destruct (INT (Z.of_nat i)) as ((_ & N) & _). exact N. }
  destruct BT as (B1 & B2). intros x [ <- |[ <- |[ <- |I]]].
  - exists "function", (repr (vstr (fclass f))). repeat split; auto; discriminate.
  - exists "module", (repr (vstr (fmodule f))). repeat split; auto; discriminate.
  - exists "base", (repr b). repeat split; auto; discriminate.
  - apply in_map_iff in I as ([k v] & <- & I). cbn [fst snd]. destruct (DK k v I) as (K1 & _ & (_ & K2 & K3)). exists k, (ftext v). split; [reflexivity|]. split; [exact K1|]. split; [apply K1|]. split; [exact (PK k v I)|]. auto.
Qed.
Lemma entries_blank ls : (forall x, In x ls -> keyed x) -> ls <> [] ->
  exists es k t, entries ls = ([], es ++ [(k, [t])])%list /\ entries (ls ++ [""])%list = ([], es ++ [(k, [t; ""])])%list.
Proof.
  induction ls as [|x r IH]; intros K N; [contradiction|]. destruct (K x (or_introl eq_refl)) as (k & t & EX & KW & _ & _ & _ & NE).
  assert (KL : key_line x = Some (k, t)) by (rewrite EX; now apply key_line_spec). destruct r as [|y r].
  - exists [], k, t. cbn [app entries key_line]. rewrite KL. split; reflexivity.
  - destruct IH as (es & k2 & t2 & E1 & E2); [intros; apply K; now right|discriminate|]. exists ((k, [t]) :: es), k2, t2.
    change ((x :: y :: r) ++ [""])%list with (x :: (y :: r) ++ [""])%list.
    assert (S : forall zs es' e, entries zs = ([], es' ++ [e])%list -> entries (x :: zs) = ([], ((k, [t]) :: es') ++ [e])%list).
    { intros zs es' e EZ. cbn [entries]. rewrite EZ, KL. destruct (es' ++ [e])%list eqn:Z; [now destruct es'|]. rewrite <- Z. reflexivity. }
    split; now apply S.
Qed.
Lemma evals_blank es k t d : evals eval (es ++ [(k, [t])])%list = Ok d -> evals eval (es ++ [(k, [t; ""])])%list = Ok d.
Proof.
  revert d. induction es as [|[k0 ls] r IH]; intros d.
  - cbn [app evals join]. change (t ++ newline ++ "") with (t ++ newline). destruct (eval t) as [v|] eqn:E; [|discriminate]. now rewrite (BREAK t v E).
  - cbn [app evals]. destruct (eval (join newline ls)) as [v|]; [|discriminate]. destruct (evals eval (r ++ [(k, [t])])%list) as [d'|] eqn:E; [|discriminate]. cbn [bind]. intros [= <-]. now rewrite (IH d' eq_refl).
Qed.
Lemma splitlines_blank ls : ls <> [] -> (forall l, In l ls -> one_line l) -> splitlines (join newline ls ++ newline ++ newline) = (ls ++ [""])%list.
Proof.
  intros N H. rewrite <- app_assoc_s, join_newline by exact N. apply splitlines_joined; [now destruct ls|]. intros l I. apply in_app_or in I as [I|[ <- |[]]]; [now apply H|reflexivity].
Qed.
(** Line breaks after the text of a function change nothing. *)
Lemma factory_ends ls bl s g : ls <> [] -> (forall x, In x ls -> keyed x) -> ends ls s -> fun_factory (join newline ls ++ newline) bl = Ok g -> fun_factory s bl = Ok g.
Proof.
  intros N K E. assert (OL : forall l, In l ls -> one_line l) by (intros l I; now apply keyed_line, K).
  unfold Serial.fun_factory. rewrite splitlines_joined by assumption. destruct E as [ -> | -> ].
  - rewrite splitlines_joined_end; [auto|exact N|exact OL|]. assert (In (last ls "") ls). { clear - N. induction ls as [|x r IH]; [contradiction|]. destruct r; [now left|]. right. now apply IH. } now apply keyed_line, K.
  - rewrite splitlines_blank by assumption. destruct (entries_blank ls K N) as (es & k & t & E1 & E2). rewrite E1, E2. cbn [snd]. destruct (evals eval (es ++ [(k, [t])])%list) as [d|] eqn:E; [|discriminate]. now rewrite (evals_blank es k t d E).
Qed.
Lemma read_funs_ends lss ss ss' acc l : Forall2 (fun ls s => s = join newline ls ++ newline /\ ls <> [] /\ forall x, In x ls -> keyed x) lss ss -> Forall2 ends lss ss' ->
  read_funs ss acc = Ok l -> read_funs ss' acc = Ok l.
Proof.
  intros A. revert ss' acc. induction A as [|ls s lss ss (-> & N & K) A IH]; intros ss' acc B; inversion B as [|? s' ? ss2 E B']; subst; [auto|]. cbn [Serial.read_funs].
  destruct (fun_factory (join newline ls ++ newline) acc) as [g|] eqn:EF; [|discriminate]. cbn [bind]. rewrite (factory_ends ls acc s' g N K E EF). cbn [bind]. now apply IH.
Qed.
(** The lines of the numbered functions are the pieces. *)
Lemma numbered_chunks name l fs n ls : write_numbered ("# " ++ name ++ " ") l fs n = Ok ls -> (forall f, In f fs -> describable f /\ plain_keys f) ->
  exists cs ss, ls = chunks cs /\ write_funs l fs = Ok ss /\ (forall c, In c cs -> exists i, fst c = ("# " ++ name ++ " ") ++ show_index i) /\
    Forall2 (fun fl s => s = join newline fl ++ newline /\ fl <> [] /\ forall x, In x fl -> keyed x) (map snd cs) ss.
Proof.
  revert n ls. induction fs as [|f r IH]; intros n ls E D.
  - injection E as <-. exists [], []. repeat split; [intros c []|constructor].
  - cbn [Serial.write_numbered] in E. destruct (fun_lines l f) as [fl|] eqn:EL; [|discriminate]. cbn [bind] in E. destruct (write_numbered ("# " ++ name ++ " ") l r (S n)) as [t|] eqn:EW; [|discriminate]. injection E as <-.
    destruct (IH (S n) t EW) as (cs & ss & -> & W & H & FA); [intros; apply D; now right|]. destruct (D f (or_introl eq_refl)) as (D1 & D2). destruct (fun_lines_keyed l f fl D1 D2 EL) as (N & K).
    exists ((("# " ++ name ++ " ") ++ show_index n, fl) :: cs), ((join newline fl ++ newline) :: ss). split; [reflexivity|]. split; [cbn [Serial.write_funs]; unfold Serial.fun_writestr; rewrite EL; cbn [bind]; rewrite W; reflexivity|]. split.
    + intros c [ <- |I]; [exists n; reflexivity|now apply H].
    + cbn [map snd]. constructor; [auto|exact FA].
Qed.
Lemma num_head_index name i : num_head name (("# " ++ name ++ " ") ++ show_index i) = true.
Proof.
  unfold num_head. destruct (index_digit i) as (c & r & -> & D). assert (P : forall p q, after_prefix p (p ++ q) = Some q).
  { intros p q. induction p as [|a p IH]; [now destruct q|]. cbn [append after_prefix]. now rewrite Ascii.eqb_refl. }
  change (after_hashes (("# " ++ name ++ " ") ++ String c r)) with (Some ((" " ++ name ++ " ") ++ String c r)). cbv beta iota. rewrite P. exact D.
Qed.
(** A list of functions in the text of an extraction is read like the texts of its functions. *)
Lemma numbered_read name l fs ls acc l' : write_numbered ("# " ++ name ++ " ") l fs 0 = Ok ls -> (forall f, In f fs -> describable f /\ plain_keys f) ->
  (forall ss, write_funs l fs = Ok ss -> read_funs ss acc = Ok l') ->
  read_funs (piece_texts (snd (pieces (num_head name) (strip_lines ls)))) acc = Ok l'.
Proof.
  intros E D R. destruct (numbered_chunks name l fs 0 ls E D) as (cs & ss & -> & W & H & FA).
  assert (NE : forall c, In c cs -> snd c <> [] /\ forall x, In x (snd c) -> keyed x).
  { intros c I. clear - FA I. revert ss FA. induction cs as [|c0 cs IH]; intros ss FA; [destruct I|]. inversion FA as [|? ? ? ? (_ & N & K) FA']; subst. destruct I as [ <- |I]; [auto|]. exact (IH I _ FA'). }
  rewrite (chunks_pieces (num_head name)).
  - cbn [snd]. apply (read_funs_ends (map snd cs) ss); [exact FA|apply texts_of_bodies; intros c I; apply (NE c I)|now apply R].
  - reflexivity.
  - apply Forall_forall. intros c I. destruct (NE c I) as (N & K). destruct (H c I) as (i & EH). split; [rewrite EH; apply num_head_index|]. split; [rewrite EH; discriminate|].
    destruct (exists_last N) as (a & x & EX). exists a, x. split; [exact EX|]. split; [apply keyed_line, K; rewrite EX; apply in_or_app; right; now left|].
    intros y J. split; [now apply keyed_line, K|]. split; [now apply keyed_plain, K|]. now apply plain_no_head, keyed_plain, K.
Qed.
End Functions.

(** ** Parts read from pieces *)
Lemma rstrip_blank s : rstrip (s ++ newline) = rstrip s.
Proof. induction s as [|c r IH]; [reflexivity|]. cbn [append rstrip]. now rewrite IH. Qed.
Lemma strip_ends s t : trimmed s -> t = s \/ t = s ++ newline \/ t = s ++ newline ++ newline -> strip t = s.
Proof.
  intros [H L] E. unfold strip. destruct s as [|c r]; [destruct H|]. cbn in H.
  assert (LS : forall z, lstrip (String c r ++ z) = String c r ++ z) by (intros z; cbn [append lstrip]; now rewrite H).
  destruct E as [ -> |[ -> | -> ]].
  - rewrite <- (app_nil_s (String c r)) at 1. rewrite LS, app_nil_s. now apply rstrip_keep.
  - rewrite LS. now rewrite rstrip_blank, rstrip_keep.
  - rewrite LS, <- app_assoc_s. now rewrite !rstrip_blank, rstrip_keep.
Qed.
Lemma one_line_no_lf s : one_line s -> no_lf s.
Proof.
  unfold one_line, no_lf. induction s as [|c r IH]; [reflexivity|]. cbn [all_chars]. intros H. apply andb_true_iff in H as [H1 H2]. rewrite (IH H2), andb_true_r.
  destruct (Ascii.eqb_spec c LF) as [->|]; [discriminate|reflexivity].
Qed.
Lemma ok_eq {A} (a b : A) : Ok a = Ok b -> a = b. Proof. congruence. Qed.
Section Parts.
Context {V F : Type}.
Variable repr : V -> string.
Variable eval : string -> result V.
Variables (vint : Z -> V).
Variable as_int : V -> option Z.
Variable is_none : V -> bool.
Variable feq : F -> F -> bool.
Variable npars : F -> nat.
Variable as_list : V -> option (list V).
Variable truth : V -> V.
Variable vlist : list V -> V.
Hypothesis INTP : forall z, round_trips repr eval (vint z) /\ as_int (vint z) = Some z.
Notation part_lines := (part_lines repr vint feq).
Notation part_factory := (part_factory eval vint as_int is_none npars as_list truth).
(** A part that can be saved (C124): values that repr and eval preserve. *)
Definition savable_part (p : part) : Prop :=
  proper npars truth p /\ list_round_trips repr eval is_none as_list vlist (part_pars p) /\ list_round_trips repr eval is_none as_list vlist (part_free p) /\
  round_trips repr eval (part_removable p) /\ round_trips repr eval (part_static p).
Lemma part_lines_good l p ls : savable_part p -> part_lines l p = Ok ls ->
  (exists a x, ls = (a ++ [x])%list /\ x <> "") /\ (forall x, In x ls -> x <> "" /\ plain x /\ one_line x) /\ trimmed (join newline ls) /\ exists a b c, ls = a :: b :: c.
Proof.
  intros (_ & (_ & _ & _ & A) & (_ & _ & _ & B) & (_ & R1 & R2) & (_ & S1 & S2)) E. unfold Serial.part_lines in E. destruct (findex feq (part_owner p) l) as [i|]; [|discriminate]. apply ok_eq in E. subst ls.
  destruct (INTP (Z.of_nat i)) as ((_ & I1 & _) & _).
  assert (LT : forall l0, (forall v, In v l0 -> one_line (repr v)) -> one_line ("[" ++ join ", " (map repr l0) ++ "]")).
  { intros l0 H. rewrite !one_line_app. split; [reflexivity|]. split; [|reflexivity]. apply one_line_join; [reflexivity|]. intros x Hx. apply in_map_iff in Hx as (v & <- & Hv). now apply H. }
  split; [|split; [|split]].
  - match goal with |- exists a x, [?u; ?v; ?w; ?y; ?z] = _ /\ _ => exists [u; v; w; y], z end. split; [reflexivity|discriminate].
  - intros x [ <- |[ <- |[ <- |[ <- |[ <- |[]]]]]]; (split; [discriminate|split; [reflexivity|]]).
    + now rewrite one_line_app.
    + change ("pars=[" ++ join ", " (map repr (part_pars p)) ++ "]") with ("pars=" ++ "[" ++ join ", " (map repr (part_pars p)) ++ "]"). rewrite one_line_app. split; [reflexivity|now apply LT].
    + change ("free=[" ++ join ", " (map repr (part_free p)) ++ "]") with ("free=" ++ "[" ++ join ", " (map repr (part_free p)) ++ "]"). rewrite one_line_app. split; [reflexivity|now apply LT].
    + now rewrite one_line_app.
    + now rewrite one_line_app.
  - split; [reflexivity|]. apply last_nonblank_join; [discriminate|]. cbn [last]. now apply last_nonblank_app.
  - eexists _, _, _. reflexivity.
Qed.
Lemma part_reads dr ds l l' p i f ls s : savable_part p -> findex feq (part_owner p) l = Some i -> nth_error l' i = Some f -> npars f = npars (part_owner p) ->
  part_lines l p = Ok ls -> ends ls s -> part_factory dr ds s l' = Ok (mkPart f (part_pars p) (part_free p) (part_removable p) (part_static p)).
Proof.
  intros SP FI NF NP EL EN. destruct (part_lines_good l p ls SP EL) as (_ & _ & T & _). destruct SP as (P & A & B & R & S).
  destruct (C124_part_survives_text repr eval vint as_int is_none feq npars as_list truth vlist INTP dr ds l l' p i f P FI NF NP A B R S) as (s0 & W & FAC).
  unfold part_writestr in W. rewrite EL in W. cbn [bind] in W. injection W as <-. rewrite <- FAC. unfold Serial.part_factory.
  rewrite (strip_ends (join newline ls) s T) by (destruct EN; tauto). now rewrite (strip_ends (join newline ls) (join newline ls ++ newline) T) by tauto.
Qed.
(** A part [p'] that is [p] with the function at the same place of another list. *)
Definition same_place {A} (l l' : list A) (f f' : A) : Prop := exists i, nth_error l i = Some f /\ nth_error l' i = Some f'.
Definition same_part (l l' : list F) (p p' : @part V F) : Prop :=
  same_place l l' (part_owner p) (part_owner p') /\ part_pars p' = part_pars p /\ part_free p' = part_free p /\ part_removable p' = part_removable p /\ part_static p' = part_static p.
Hypothesis FE : forall f g, feq f g = true <-> f = g.
Lemma parts_read dt df l l' ps ls : (forall p, In p ps -> savable_part p) -> (forall i f, nth_error l i = Some f -> exists f', nth_error l' i = Some f' /\ npars f' = npars f) ->
  write_parts repr vint feq "# InitialPeak" l ps = Ok ls ->
  (strip_lines ls = [] \/ exists r, strip_lines ls = ("# InitialPeak" :: r)%list) /\ (forall x, In x ls -> no_lf x /\ (plain x \/ x = "# InitialPeak")) /\
  exists ps', parts_of eval vint as_int is_none npars as_list truth dt df l' (piece_texts (snd (pieces (is_section "InitialPeak") (strip_lines ls)))) = Ok ps' /\ Forall2 (same_part l l') ps ps'.
Proof.
  intros SP NP E.
  assert (CH : exists cs, ls = chunks cs /\ (forall c, In c cs -> fst c = "# InitialPeak") /\ Forall2 (fun p fl => part_lines l p = Ok fl) ps (map snd cs)).
  { clear - E. revert ls E. induction ps as [|p r IH]; intros ls E; [injection E as <-; exists []; repeat split; [intros c []|constructor]|].
    cbn [write_parts] in E. destruct (part_lines l p) as [fl|] eqn:EL; [|discriminate]. cbn [bind] in E. destruct (write_parts repr vint feq "# InitialPeak" l r) as [t|]; [|discriminate]. injection E as <-.
    destruct (IH t eq_refl) as (cs & -> & H & FA). exists (("# InitialPeak", fl) :: cs). split; [reflexivity|]. split; [intros c [ <- |I]; [reflexivity|now apply H]|]. cbn [map snd]. constructor; auto. }
  destruct CH as (cs & -> & H & FA).
  assert (GB : forall c, In c cs -> (exists a x, snd c = (a ++ [x])%list /\ x <> "") /\ (forall x, In x (snd c) -> x <> "" /\ plain x /\ one_line x)).
  { clear - FA SP INTP. revert cs FA. induction ps as [|p r IH]; intros cs FA c I; destruct cs as [|c0 cs]; inversion FA as [|? ? ? ? EL FA']; subst; [destruct I|].
    destruct I as [ <- |I]; [|apply (IH (fun q J => SP q (or_intror J)) cs FA' c I)]. destruct (part_lines_good l p (snd c0) (SP p (or_introl eq_refl)) EL) as (A & B & _). auto. }
  assert (GC : Forall (good_chunk (is_section "InitialPeak")) cs).
  { apply Forall_forall. intros c I. destruct (GB c I) as ((a & x & EX & NX) & P). split; [now rewrite (H c I)|]. split; [rewrite (H c I); discriminate|]. exists a, x. split; [exact EX|]. split; [exact NX|].
    intros y J. destruct (P y J) as (P1 & P2 & _). split; [exact P1|]. split; [exact P2|]. now apply plain_no_section. }
  split; [|split].
  - destruct cs as [|[h fl] cs]; [now left|]. right. rewrite (H _ (or_introl eq_refl)) || idtac. assert (h = "# InitialPeak") by (exact (H (h, fl) (or_introl eq_refl))). subst h. unfold strip_lines. cbn [chunks drop_blank_lines drop_blank_lines_at_end].
    destruct (drop_blank_lines_at_end (fl ++ "" :: chunks cs)); eexists; reflexivity.
  - intros x I. clear - I H GB. induction cs as [|[h fl] cs IH]; [destruct I|]. cbn [chunks In] in I. destruct I as [ <- |I].
    + pose proof (H (h, fl) (or_introl eq_refl)) as E. cbn [fst] in E. subst h. split; [reflexivity|now right].
    + apply in_app_or in I as [I|[ <- |I]]; [|split; [reflexivity|left; exact Logic.I]|apply IH; [intros; apply H; now right|intros; apply GB; now right|exact I]].
      destruct (GB (h, fl) (or_introl eq_refl)) as (_ & P). destruct (P x I) as (_ & P2 & P3). split; [now apply one_line_no_lf|now left].
  - rewrite (chunks_pieces (is_section "InitialPeak")) by (try reflexivity; exact GC). cbn [snd].
    assert (TX : Forall2 ends (map snd cs) (piece_texts (bodies cs))). { apply texts_of_bodies. intros c I. destruct (GB c I) as ((a & x & -> & _) & _). now destruct a. }
    revert TX. generalize (piece_texts (bodies cs)) as ts. clear - FA SP NP INTP FE. revert FA. generalize (map snd cs) as fls. clear cs. intros fls FA. induction FA as [|p fl ps fls EL FA IH]; intros ts TX; inversion TX as [|? t ? ts' EN TX']; subst; [exists []; split; [reflexivity|constructor]|].
    destruct (IH (fun q J => SP q (or_intror J)) ts' TX') as (ps' & E' & F2). cbn [parts_of].
    assert (FI : exists i, findex feq (part_owner p) l = Some i) by (unfold Serial.part_lines in EL; destruct (findex feq (part_owner p) l) as [i|]; [eauto|discriminate]). destruct FI as (i & FI).
    pose proof (findex_nth feq FE _ _ _ FI) as NI. destruct (NP i _ NI) as (f' & NF & NPF).
    rewrite (part_reads dt df l l' p i f' fl t (SP p (or_introl eq_refl)) FI NF NPF EL EN). cbn [bind]. rewrite E'. cbn [bind]. eexists. split; [reflexivity|]. constructor; [|exact F2]. split; [exists i; auto|]. repeat split.
Qed.
End Parts.

(** ** Columns *)
Lemma words_join ws : (forall w, In w ws -> word w) -> ws <> [] -> words "" (join " " ws) = ws.
Proof.
  induction ws as [|w r IH]; intros H N; [contradiction|]. destruct (H w (or_introl eq_refl)) as (NW & HW). destruct r as [|w2 r]; [cbn [join]; apply words_end; now split|].
  change (join " " (w :: w2 :: r)) with (w ++ " " ++ join " " (w2 :: r)). rewrite words_word by exact HW. change (words ("" ++ w) (" " ++ join " " (w2 :: r)) = w :: w2 :: r). change (" " ++ join " " (w2 :: r)) with (String " " (join " " (w2 :: r))). remember (join " " (w2 :: r)) as rest. cbn [words]. change (isblank " ") with true. cbv iota. destruct w as [|c w]; [contradiction|]. change ("" ++ String c w) with (String c w). cbv iota. f_equal. subst rest. apply IH; [intros; apply H; now right|discriminate].
Qed.
Section Columns.
Context {N : Type}.
Variable gen : N -> string.
Variable parse : string -> result N.
Variable rnd : N -> N.
Hypothesis GEN : forall v, word (gen v) /\ parse (gen v) = Ok (rnd v).
Lemma row_reads i (cols : list (string * list N)) w : row gen i cols = Ok w ->
  (forall x, In x w -> word x) /\ append_row parse (map (fun ka => (fst ka, map rnd (firstn i (snd ka)))) cols) w = Ok (map (fun ka => (fst ka, map rnd (firstn (S i) (snd ka)))) cols).
Proof.
  revert w. induction cols as [|[k a] r IH]; intros w E; [injection E as <-; split; [intros x []|reflexivity]|]. cbn [row] in E. destruct (nth_error a i) as [v|] eqn:EN; [|discriminate]. destruct (row gen i r) as [t|]; [|discriminate]. injection E as <-.
  destruct (IH t eq_refl) as (A & B). destruct (GEN v) as (G1 & G2). split; [intros x [ <- |I]; auto|]. cbn [map append_row fst snd]. rewrite G2. cbn [bind]. rewrite B. cbn [bind]. f_equal. f_equal. f_equal.
  assert (S1 : firstn (S i) a = (firstn i a ++ [v])%list). { clear - EN. revert a EN. induction i as [|i IH]; intros [|x a] E; try discriminate; [injection E as ->; reflexivity|]. cbn [firstn app]. f_equal. now apply IH. }
  now rewrite S1, map_app.
Qed.
Lemma rows_read m i (cols : list (string * list N)) ls : cols <> [] -> data_rows gen (seq i m) cols = Ok ls ->
  (forall l, In l ls -> exists w, l = join " " w /\ w <> [] /\ forall x, In x w -> exists v, x = gen v) /\
  append_rows parse (map (fun ka => (fst ka, map rnd (firstn i (snd ka)))) cols) ls = Ok (map (fun ka => (fst ka, map rnd (firstn (i + m) (snd ka)))) cols).
Proof.
  intros NC. revert i ls. induction m as [|m IH]; intros i ls E; cbn [seq data_rows] in E.
  - injection E as <-. split; [intros l []|]. now rewrite Nat.add_0_r.
  - destruct (row gen i cols) as [w|] eqn:ER; [|discriminate]. cbn [bind] in E. destruct (data_rows gen (seq (S i) m) cols) as [t|] eqn:ED; [|discriminate]. injection E as <-.
    destruct (row_reads i cols w ER) as (A & B). destruct (IH (S i) t ED) as (C & D).
    assert (NW : w <> [] /\ forall x, In x w -> exists v, x = gen v).
    { clear - ER NC. revert w ER. induction cols as [|[k a] r IH]; intros w ER; [contradiction|]. cbn [row] in ER. destruct (nth_error a i); [|discriminate]. destruct (row gen i r) as [t|] eqn:E; [|discriminate]. injection ER as <-. split; [discriminate|]. intros x [ <- |I]; [eauto|].
      destruct r as [|ka r]; [injection E as <-; destruct I|]. destruct (IH ltac:(discriminate) t eq_refl) as (_ & Q). now apply Q. }
    destruct NW as (NW & GW). split; [intros l [ <- |I]; [eauto|now apply C]|]. cbn [append_rows]. rewrite words_join by assumption. rewrite B. cbn [bind]. rewrite D. do 2 f_equal. now rewrite Nat.add_succ_r.
Qed.
End Columns.

(** ** C200 *)
Section Main.
Context {V F N : Type}.
Variable repr : V -> string.
Variable eval : string -> result V.
Variables (vnone : V) (vint : Z -> V) (vstr : string -> V).
Variable as_int : V -> option Z.
Variable is_none : V -> bool.
Variable fclass fmodule : F -> string.
Variable fbase : F -> option F.
Variable fmeta : F -> list (string * V).
Variable ftext : V -> string.
Variable feq : F -> F -> bool.
Variable construct : V -> V -> option F -> list (string * V) -> result F.
Variable npars : F -> nat.
Variable as_list : V -> option (list V).
Variable truth : V -> V.
Variable vlist : list V -> V.
Variable safelist : list F -> list F.
Variable show_ints : list Z -> string.
Variable eval_ints : string -> result (option (list Z)).
Variable gen : N -> string.
Variable parse : string -> result N.
Variables (vtrue vfalse : V).
Variable rnd : N -> N.
Variable clone : F -> option F -> F.
Notation extraction := (@extraction V F N).
Notation mc := (@mc V F).
Notation write := (writestr repr vnone vint vstr fclass fmodule fbase fmeta ftext feq safelist show_ints gen (Some (pdf_metadata repr))).
Notation mc_lines := (mc_writestr repr vnone vint vstr fclass fmodule fbase fmeta ftext feq safelist show_ints show_index).
Notation read := (readstr eval vint as_int is_none construct npars as_list truth eval_ints parse vtrue vfalse).

(** What is assumed of Python: identity of objects; repr and eval of None, integers and lists
    of integers; "%g" and float(), with the rounding of six digits. *)
Record python := {
  py_eq : forall f g, feq f g = true <-> f = g;
  py_none : text_of eval (repr vnone) vnone /\ is_none vnone = true;
  py_int : forall z, text_of eval (repr (vint z)) (vint z) /\ is_none (vint z) = false /\ as_int (vint z) = Some z;
  py_int_end : forall z, last_nonblank (repr (vint z));
  py_break : forall t v, eval t = Ok v -> eval (t ++ newline) = Ok v;
  py_ints : forall l, no_lf (show_ints l) /\ eval_ints (strip (show_ints l)) = Ok (Some l);
  py_ints_none : eval_ints "None" = Ok None;
  py_float : forall v, word (gen v) /\ plain (gen v) /\ parse (gen v) = Ok (rnd v) }.
(** The list of functions: those asked for and their bases, bases first (C19). *)
Definition safe_lists : Prop := forall fs, NoDup (safelist fs) /\ incl fs (safelist fs) /\
  forall i f g, nth_error (safelist fs) i = Some f -> fbase f = Some g -> exists j, (j < i)%nat /\ nth_error (safelist fs) j = Some g.
(** A function whose class accepts its own metadata. *)
Definition savable_fun (f : F) : Prop :=
  describable repr eval vstr fclass fmodule fmeta ftext f /\ plain_keys fmeta f /\
  (forall b, (b = None <-> fbase f = None) -> construct (vstr (fclass f)) (vstr (fmodule f)) b (fmeta f) = Ok (clone f b) /\ npars (clone f b) = npars f).
(** Values that repr and eval preserve. *)
Definition savable (v : V) : Prop := no_lf (repr v) /\ eval (strip (repr v)) = Ok v.
Notation savable_part := (savable_part repr eval is_none npars as_list truth vlist).
(** The functions of an extraction: peak functions, baseline functions. *)
Definition peak_functions (e : extraction) : list F :=
  (match e_pf e with Some l => l | None => [] end ++ map part_owner (match e_initial e with Some l => l | None => [] end) ++
   match e_cluster e with None => [] | Some m => match mc_funcs m with None => [] | Some l => l end ++ map part_owner (mc_peaks m) end)%list.
Definition savable_extraction (e : extraction) : Prop :=
  (forall f, In f (safelist (peak_functions e)) \/ In f (safelist (all_bf e)) -> savable_fun f) /\
  (forall ps p, e_initial e = Some ps -> In p ps -> savable_part p) /\ (forall p, e_baseline e = BvPart p -> savable_part p) /\
  e_cres e <> None /\ savable (e_rng e) /\ savable (e_type e) /\ (forall k, In k pdf_attributes -> savable (e_more e k)) /\
  (forall a, In (Some a) (arrays_of e) -> List.length a = rows_of e) /\
  (forall m, e_cluster e = Some m -> mc_funcs m <> None /\ no_lf (mc_slice m) /\ (forall n, mc_eval m = Some n -> no_lf n) /\ (forall l, In l (mc_rows m) -> no_lf l) /\
     (forall p, In p (mc_peaks m) -> savable_part p) /\ (forall p, mc_base m = Some p -> savable_part p)).
(** [l'] are copies of the functions [l], with copies of their bases. *)
Definition copies (l l' : list F) : Prop :=
  List.length l' = List.length l /\ forall i f, nth_error l i = Some f ->
    match fbase f with
    | None => nth_error l' i = Some (clone f None)
    | Some g => exists j g', nth_error l j = Some g /\ nth_error l' j = Some g' /\ nth_error l' i = Some (clone f (Some g'))
    end.
Definition same_opt {A} (P : A -> A -> Prop) (x y : option A) : Prop := match x, y with None, None => True | Some a, Some b => P a b | _, _ => False end.
Definition same_baseline (l l' : list F) (x y : @base_value V F) : Prop :=
  match x, y with BvNone, BvNone => True | BvFun f, BvFun g => same_place l l' f g | BvPart p, BvPart q => same_part l l' p q | _, _ => False end.

Lemma index_no_lf n : no_lf (show_index n).
Proof.
  assert (D : forall u, no_lf (NilEmpty.string_of_uint u)) by (induction u; [reflexivity|cbn; exact IHu..]). unfold show_index, NilZero.string_of_uint. destruct (Nat.to_uint n) eqn:E; [reflexivity|rewrite <- E; apply D..].
Qed.
Lemma funs_read name l ls : python -> no_lf name -> NoDup l -> (forall i f g, nth_error l i = Some f -> fbase f = Some g -> exists j, (j < i)%nat /\ nth_error l j = Some g) ->
  (forall f, In f l -> savable_fun f) ->
  write_numbered repr vnone vint vstr fclass fmodule fbase fmeta ftext feq show_index ("# " ++ name ++ " ") l l 0 = Ok ls ->
  (forall x, In x ls -> no_lf x /\ (plain x \/ exists i, x = ("# " ++ name ++ " ") ++ show_index i)) /\
  exists l', read_funs eval as_int is_none construct (piece_texts (snd (pieces (num_head name) (strip_lines ls)))) [] = Ok l' /\ copies l l' /\
    forall i f, nth_error l i = Some f -> exists f', nth_error l' i = Some f' /\ npars f' = npars f.
Proof.
  intros [PE PN PI PIE PB PIS PIN PF] NN ND OR SF E.
  assert (DK : forall f, In f l -> describable repr eval vstr fclass fmodule fmeta ftext f /\ plain_keys fmeta f) by (intros f I; destruct (SF f I) as (A & B & _); auto).
  split.
  - destruct (numbered_chunks repr eval vnone vint vstr as_int is_none fclass fmodule fbase fmeta ftext feq PN PI name l l 0 ls E DK) as (cs & ss & -> & _ & H & FA).
    assert (KB : forall c x, In c cs -> In x (snd c) -> keyed x).
    { clear - FA. revert ss FA. induction cs as [|c0 cs IH]; intros ss FA c x I J; [destruct I|]. inversion FA as [|? ? ? ? (_ & _ & K) FA']; subst. destruct I as [ <- |I]; [now apply K|exact (IH _ FA' c x I J)]. }
    clear - H KB NN. induction cs as [|[h fl] cs IH]; intros x I; [destruct I|]. cbn [chunks In] in I. destruct I as [ <- |I].
    + destruct (H (h, fl) (or_introl eq_refl)) as (i & EH). cbn [fst] in EH. rewrite EH. split; [|right; eauto]. apply no_lf_app; [|apply index_no_lf]. change ("# " ++ name ++ " ") with (("# ") ++ (name ++ " ")). apply no_lf_app; [reflexivity|]. now apply no_lf_app.
    + apply in_app_or in I as [I|[ <- |I]]; [|split; [reflexivity|left; exact Logic.I]|apply IH; [intros; apply H; now right|intros c y J; apply KB; now right|exact I]].
      pose proof (KB (h, fl) x (or_introl eq_refl) I) as K. split; [now apply one_line_no_lf, keyed_line|left; now apply keyed_plain].
  - destruct (C123_function_list_survives_text repr eval vnone vint vstr as_int is_none fclass fmodule fbase fmeta ftext feq construct PN PI clone PE l ND) as (ss & l' & W & R & LL & CP).
    + intros f I. apply (DK f I).
    + exact OR.
    + intros f b I B. destruct (SF f I) as (_ & _ & C). now apply C.
    + exists l'. split.
      * apply (numbered_read repr eval vnone vint vstr as_int is_none fclass fmodule fbase fmeta ftext feq construct PN PI PB name l l ls [] l' E DK). intros ss' W'. rewrite W in W'. apply ok_eq in W'. now subst ss'.
      * split; [split; assumption|]. intros i f NI. pose proof (CP i f NI) as C. destruct (SF f (nth_error_In _ _ NI)) as (_ & _ & CC). destruct (fbase f) as [g|] eqn:B.
        -- destruct C as (j & g' & _ & _ & C). exists (clone f (Some g')). split; [exact C|]. apply CC. split; discriminate.
        -- exists (clone f None). split; [exact C|]. apply CC. tauto.
Qed.

Lemma pick_indices l l' fs is : python -> indices feq l fs = Ok is -> (forall i f, nth_error l i = Some f -> exists f', nth_error l' i = Some f' /\ npars f' = npars f) ->
  exists fs', pick l' is = Ok fs' /\ Forall2 (same_place l l') fs fs'.
Proof.
  intros PY E NP. revert is E. induction fs as [|f r IH]; intros is E; cbn [indices] in E; [injection E as <-; exists []; split; [reflexivity|constructor]|].
  destruct (findex feq f l) as [i|] eqn:FI; [|discriminate]. destruct (indices feq l r) as [t|]; [|discriminate]. injection E as <-. pose proof (findex_nth feq (py_eq PY) _ _ _ FI) as NI. destruct (NP i f NI) as (f' & NF & _).
  destruct (IH t eq_refl) as (fs' & P & F2). exists (f' :: fs'). split; [|constructor; [exists i; auto|exact F2]]. cbn [pick].
  assert (PG : pyget l' (Z.of_nat i) = Ok f'). { unfold pyget. assert (i < List.length l')%nat by (apply nth_error_Some; congruence). destruct (Z.ltb_spec (Z.of_nat i) 0); [lia|]. destruct (Z.leb_spec (Z.of_nat (List.length l')) (Z.of_nat i)); [lia|]. rewrite Nat2Z.id, NF. destruct (Z.ltb_spec (Z.of_nat i) 0); [lia|reflexivity]. }
  rewrite PG. cbn [bind]. rewrite P. reflexivity.
Qed.

Lemma strip_word w : word w -> strip w = w.
Proof.
  intros W. pose proof (word_last w W) as L. destruct W as (N0 & H). destruct w as [|c w]; [contradiction|]. cbn [all_chars] in H. apply andb_true_iff in H as [H _]. apply negb_true_iff in H.
  unfold strip. cbn [lstrip]. rewrite H. now apply rstrip_keep.
Qed.
Lemma no_lf_join ws : (forall w, In w ws -> no_lf w) -> no_lf (join " " ws).
Proof.
  induction ws as [|w r IH]; intros H; [reflexivity|]. destruct r as [|w2 r]; [cbn [join]; apply H; now left|]. change (join " " (w :: w2 :: r)) with (w ++ " " ++ join " " (w2 :: r)).
  apply no_lf_app; [apply H; now left|]. apply no_lf_app; [reflexivity|]. apply IH. intros; apply H; now right.
Qed.
Lemma row_plain w : python -> w <> [] -> (forall x, In x w -> exists v, x = gen v) -> no_lf (join " " w) /\ plain (join " " w).
Proof.
  intros PY N0 H. split; [apply no_lf_join; intros x I; destruct (H x I) as (v & ->); apply word_no_lf, (py_float PY v)|].
  destruct w as [|x r]; [contradiction|]. destruct (H x (or_introl eq_refl)) as (v & ->). destruct (py_float PY v) as ((NE & _) & P & _). destruct (gen v) as [|c t]; [contradiction|]. destruct r; exact P.
Qed.
Lemma label_line (e : extraction) : exists t, join " " ("#L" :: map fst (present (columns e))) = String "#" (String "L" t) /\
  words "" (join " " ("#L" :: map fst (present (columns e)))) = "#L" :: map fst (present (columns e)) /\ no_lf (join " " ("#L" :: map fst (present (columns e)))).
Proof. unfold columns. destruct (e_x e), (e_y e), (e_dx e), (e_dy e), (e_edy e); cbn [present map fst]; eexists; repeat split. Qed.

(** ** The sections *)
Lemma all_not name (ls : list string) : (forall x, In x ls -> is_section name x = false) -> Forall (fun l => is_section name l = false) ls.
Proof. intros H. apply Forall_forall. exact H. Qed.

(** Everything that PDFPeakExtraction.writestr writes is found in the text by the steps of
    readstr, if its search for the column "edy", the lookup of the evaluator and
    ModelCluster.factory do what they are meant to do. *)
Theorem C200_text_is_complete :
  forall edy evaluator cluster copy_cluster time user version (e : extraction) o n,
    python -> safe_lists -> savable_extraction e -> no_lf time -> no_lf user -> no_lf version ->
    (forall ws, edy ws = Ok (existsb (String.eqb "edy") ws)) ->
    e_method e = Some n -> word n -> evaluator n = Ok n ->
    (forall m pl bl pl' bl' ls, e_cluster e = Some m -> mc_lines (Some pl) (Some bl) m = Ok ls -> copies pl pl' -> copies bl bl' ->
       cluster pl' bl' (strip_lines ls) = Ok (copy_cluster pl' bl' m)) ->
    exists s e' pl pl' bl bl',
      write time user version e = Ok s /\ read edy evaluator cluster o s = Ok e' /\ copies pl pl' /\ copies bl bl' /\
      same_opt (Forall2 (same_place pl pl')) (e_pf e) (e_pf e') /\
      same_opt (Forall2 (same_part pl pl')) (e_initial e) (e_initial e') /\
      same_baseline bl bl' (e_baseline e) (e_baseline e') /\
      e_cres e' = option_map rnd (e_cres e) /\ e_method e' = e_method e /\ e_rng e' = e_rng e /\ e_type e' = e_type e /\
      e_x e' = option_map (map rnd) (e_x e) /\ e_y e' = option_map (map rnd) (e_y e) /\ e_dx e' = option_map (map rnd) (e_dx e) /\
      e_dy e' = option_map (map rnd) (e_dy e) /\ e_edy e' = option_map (map rnd) (e_edy e) /\
      e_cluster e' = option_map (copy_cluster pl' bl') (e_cluster e) /\
      forall k, In k pdf_attributes -> e_more e' k = e_more e k.
Proof.
  intros edy evaluator cluster copy_cluster time user version e o n PY SL SV NT NU NV ED EM WN EV CL.
  destruct SV as (SF & SIP & SB & NC & (RG1 & RG2) & (TY1 & TY2) & SA & LA & SM).
  pose proof (py_int PY) as PI. assert (INTP : forall z, round_trips repr eval (vint z) /\ as_int (vint z) = Some z) by (intros z; destruct (PI z) as ((A & B & C) & D & G); split; [split; [exact A|split; [exact B|apply (py_int_end PY)]]|exact G]).
  assert (CLO : closed_list fbase safelist).
  { intros fs. destruct (SL fs) as (_ & I & O). split; [exact I|]. intros f g If B. apply In_nth_error in If as (i & Ei). destruct (O i f g Ei B) as (j & _ & Ej). exact (nth_error_In _ _ Ej). }
  destruct (proj2 (C198_when_text_is_made repr vnone vint vstr fclass fmodule fbase fmeta ftext feq safelist show_ints gen (py_eq PY) CLO (pdf_metadata repr) time user version e)) as (s & WS).
  { split; [exact NC|]. split; [intros m E; apply (SM m E)|]. intros a I. rewrite (LA a I). lia. }
  unfold writestr in WS. destruct (writelines repr vnone vint vstr fclass fmodule fbase fmeta ftext feq safelist show_ints gen (Some (pdf_metadata repr)) time user version e) as [ls|] eqn:WL; [|discriminate]. cbn [bind] in WS. apply ok_eq in WS.
  assert (WR : write time user version e = Ok s) by (unfold writestr; rewrite WL; cbn [bind]; now rewrite WS).
  unfold writelines in WL.
  assert (AP : all_pf e = Ok (peak_functions e)).
  { unfold all_pf, peak_functions, optl. destruct (e_cluster e) as [m|]; [|reflexivity]. destruct (SM m eq_refl) as (NF & _). destruct (mc_funcs m); [reflexivity|contradiction]. }
  rewrite AP in WL. cbn [bind] in WL. set (pl := safelist (peak_functions e)) in *. set (bl := safelist (all_bf e)) in *.
  destruct (write_numbered repr vnone vint vstr fclass fmodule fbase fmeta ftext feq show_index "# BaselineFunction " bl bl 0) as [bf|] eqn:EBF; [|discriminate]. cbn [bind] in WL.
  destruct (write_numbered repr vnone vint vstr fclass fmodule fbase fmeta ftext feq show_index "# PeakFunction " pl pl 0) as [pf|] eqn:EPF; [|discriminate]. cbn [bind] in WL.
  destruct (match e_baseline e with BvNone => _ | BvFun f => _ | BvPart p => _ end) as [bo|] eqn:EBO; [|discriminate]. cbn [bind] in WL.
  destruct (match e_initial e with None => _ | Some ps => _ end) as [ip|] eqn:EIP; [|discriminate]. cbn [bind] in WL.
  destruct (match e_pf e with None => _ | Some fs => _ end) as [pi|] eqn:EPI; [|discriminate]. cbn [bind] in WL.
  destruct (e_cres e) as [c|] eqn:ECR; [|contradiction]. cbn [bind] in WL. rewrite numlines_rows in WL.
  destruct (data_rows gen (seq 0 (rows_of e)) (present (columns e))) as [rows|] eqn:ERO; [|discriminate]. cbn [bind] in WL.
  destruct (match e_cluster e with None => _ | Some m => _ end) as [cl|] eqn:ECL; [|discriminate]. cbn [bind] in WL. apply ok_eq in WL.
  rewrite EM in WL.
  (* functions *)
  destruct (SL (peak_functions e)) as (NDP & INP & ORP). destruct (SL (all_bf e)) as (NDB & INB & ORB). fold pl in NDP, INP, ORP. fold bl in NDB, INB, ORB.
  destruct (funs_read "BaselineFunction" bl bf PY eq_refl NDB ORB (fun f I => SF f (or_intror I)) EBF) as (LBF & bl' & RBF & CB & NPB).
  destruct (funs_read "PeakFunction" pl pf PY eq_refl NDP ORP (fun f I => SF f (or_introl I)) EPF) as (LPF & pl' & RPF & CP & NPP).
  (* the parts of the text *)
  set (l1 := "History written: " ++ time) in *. set (l2 := "produced by " ++ user) in *. set (l3 := "diffpy.srmise version " ++ version) in *.
  set (l4 := "ModelEvaluator=" ++ n) in *. set (l5 := "Range=" ++ repr (e_rng e)) in *. set (l6 := "extraction_type=" ++ repr (e_type e)) in *.
  set (cr := "cres=" ++ gen c) in *. set (lab := join " " ("#L" :: map fst (present (columns e)))) in *. set (md := pdf_metadata repr (e_more e)) in *.
  assert (FIX : forall f l i, findex feq f l = Some i -> nth_error l i = Some f) by (intros f l i; apply findex_nth; exact (py_eq PY)).
  (* the baseline *)
  assert (HBO : (forall x, In x bo -> no_lf x /\ plain x) /\ exists bv,
    (match strip_lines (skip_comments bo) with
     | [t] => if String.eqb t "None" then Ok BvNone else
              match as_index t with
              | Some i => match nth_error bl' i with Some f => Ok (BvFun f) | None => Err IndexError end
              | None => do p <- part_factory eval vint as_int is_none npars as_list truth vfalse vfalse t bl'; Ok (BvPart p)
              end
     | _ => do p <- part_factory eval vint as_int is_none npars as_list truth vfalse vfalse (join newline (strip_lines (skip_comments bo))) bl'; Ok (BvPart p)
     end) = Ok bv /\ same_baseline bl bl' (e_baseline e) bv).
  { destruct (e_baseline e) as [|f|p] eqn:EB.
    - apply ok_eq in EBO. subst bo. split; [intros x [ <- |[]]; now split|]. exists BvNone. split; [reflexivity|exact Logic.I].
    - destruct (findex feq f bl) as [i|] eqn:FI; [|discriminate]. apply ok_eq in EBO. subst bo. destruct (index_digit i) as (d & r & ES & DI).
      assert (PL : plain (show_index i)). { rewrite ES. cbn. destruct (Ascii.eqb_spec d "#") as [->|]; [discriminate|reflexivity]. }
      split; [intros x [ <- |[]]; split; [apply index_no_lf|exact PL]|]. destruct (NPB i f (FIX _ _ _ FI)) as (f' & NF & _). exists (BvFun f').
      assert (SK : strip_lines (skip_comments [show_index i]) = [show_index i]).
      { rewrite ES in PL |- *. cbn in PL. cbn [skip_comments]. rewrite PL. reflexivity. }
      rewrite SK. assert (NN : String.eqb (show_index i) "None" = false). { destruct (String.eqb_spec (show_index i) "None") as [C|]; [|reflexivity]. pose proof (index_text i) as T. rewrite C in T. discriminate. }
      rewrite NN, index_text, NF. split; [reflexivity|]. exists i. split; [exact (FIX _ _ _ FI)|exact NF].
    - destruct (part_lines repr vint feq bl p) as [fl|] eqn:EL; [|discriminate]. apply ok_eq in EBO. subst bo. pose proof (SB p eq_refl) as SP.
      destruct (part_lines_good repr eval vint as_int is_none feq npars as_list truth vlist INTP bl p fl SP EL) as ((a & x & EA & NX) & P & _ & (u & v & w & EU)).
      split; [intros y I; apply in_app_or in I as [I|[ <- |[]]]; [destruct (P y I) as (_ & P2 & P3); split; [now apply one_line_no_lf|exact P2]|split; [reflexivity|exact Logic.I]]|].
      assert (SK : skip_comments (fl ++ [""])%list = (fl ++ [""])%list). { apply skip_plain; [rewrite EU; discriminate|]. intros y I. destruct (P y I) as (? & ? & _). auto. }
      assert (ST : strip_lines (fl ++ [""])%list = fl).
      { unfold strip_lines. assert (DB : drop_blank_lines (fl ++ [""])%list = (fl ++ [""])%list). { rewrite EU. destruct (P u) as (NU0 & _); [rewrite EU; now left|]. destruct u; [contradiction|reflexivity]. } rewrite DB, drop_end_app, EA. now apply drop_end_keep. }
      rewrite SK, ST.
      assert (FI : exists i, findex feq (part_owner p) bl = Some i) by (unfold Serial.part_lines in EL; destruct (findex feq (part_owner p) bl) as [i|]; [eauto|discriminate]). destruct FI as (i & FI).
      destruct (NPB i _ (FIX _ _ _ FI)) as (f' & NF & NPF).
      pose proof (part_reads repr eval vint as_int is_none feq npars as_list truth vlist INTP vfalse vfalse bl bl' p i f' fl (join newline fl) SP FI NF NPF EL (or_introl eq_refl)) as RD.
      rewrite EU in RD |- *. cbv beta iota. rewrite RD. cbn [bind]. eexists. split; [reflexivity|]. split; [exists i; split; [exact (FIX _ _ _ FI)|exact NF]|]. repeat split. }
  destruct HBO as (LBO & bv & RBO & SBO).
  (* the initial peaks *)
  assert (HIP : (forall x, In x ip -> no_lf x /\ (plain x \/ x = "# InitialPeak")) /\ exists iv,
    (match strip_lines ip with
     | ["None"] => Ok None
     | l => do ps <- parts_of eval vint as_int is_none npars as_list truth vtrue vfalse pl' (piece_texts (snd (pieces (is_section "InitialPeak") l))); Ok (Some ps)
     end) = Ok iv /\ same_opt (Forall2 (same_part pl pl')) (e_initial e) iv).
  { destruct (e_initial e) as [ps|] eqn:EI.
    - destruct (parts_read repr eval vint as_int is_none feq npars as_list truth vlist INTP (py_eq PY) vtrue vfalse pl pl' ps ip (fun p I => SIP ps p eq_refl I) NPP EIP) as (SH & LI & ps' & RP & F2).
      split; [exact LI|]. exists (Some ps'). split; [|exact F2]. destruct SH as [SH|(r & SH)]; rewrite SH in RP |- *; cbv beta iota; rewrite RP; reflexivity.
    - apply ok_eq in EIP. subst ip. split; [intros x [ <- |[]]; split; [reflexivity|now left]|]. exists None. split; [reflexivity|exact Logic.I]. }
  destruct HIP as (LIP & iv & RIP & SIV).
  (* the indices of the peak functions *)
  assert (HPI : exists t oi pv, pi = "pf=" ++ t /\ no_lf t /\ eval_ints (strip t) = Ok oi /\ (match oi with None => Ok None | Some is => do l <- pick pl' is; Ok (Some l) end) = Ok pv /\ same_opt (Forall2 (same_place pl pl')) (e_pf e) pv).
  { destruct (e_pf e) as [fs|] eqn:EP.
    - destruct (indices feq pl fs) as [is|] eqn:EI; [|discriminate]. cbn [bind] in EPI. apply ok_eq in EPI. subst pi. destruct (py_ints PY is) as (A & B). destruct (pick_indices pl pl' fs is PY EI NPP) as (fs' & P & F2).
      exists (show_ints is), (Some is), (Some fs'). split; [reflexivity|]. split; [exact A|]. split; [exact B|]. rewrite P. split; [reflexivity|exact F2].
    - apply ok_eq in EPI. subst pi. exists "None", None, None. split; [reflexivity|]. split; [reflexivity|]. split; [exact (py_ints_none PY)|]. split; [reflexivity|exact Logic.I]. }
  destruct HPI as (tp & oi & pv & EPI' & LPI & ROI & RPV & SPV). clear EPI.
  (* the rows *)
  assert (LRO : forall x, In x rows -> no_lf x /\ plain x).
  { intros x I. assert (NC0 : present (columns e) <> []). { intros C. rewrite <- numlines_rows, C in ERO. cbn in ERO. apply ok_eq in ERO. subst rows. destruct I. }
    destruct (rows_read gen parse rnd (fun v => conj (proj1 (py_float PY v)) (proj2 (proj2 (py_float PY v)))) (rows_of e) 0 (present (columns e)) rows NC0 ERO) as (A & _). destruct (A x I) as (w & -> & NW & GW). now apply row_plain. }
  destruct (label_line e) as (tl & LAB & LWO & LLF). fold lab in LAB, LWO, LLF.
  (* the metadata *)
  assert (LMD : forall x, In x md -> no_lf x /\ plain x).
  { intros x I. unfold md, pdf_metadata in I. apply in_app_or in I as [I|[ <- |[]]]; [|split; [reflexivity|exact Logic.I]]. apply in_map_iff in I as (k & <- & I). destruct (SA k I) as (A & _).
    cbn [meta_names In] in I. repeat destruct I as [ <- |I]; try (split; [apply no_lf_app; [reflexivity|]; apply no_lf_app; [reflexivity|exact A]|reflexivity]). destruct I. }
  destruct (C161_round_trip repr eval (e_more e) o SA) as (o2 & RMD & MDA & _).
  assert (RMD' : read_fields eval meta_names md o = (o2, Ok tt)).
  { unfold readmetadata, writemetadata in RMD. rewrite split_written in RMD; [exact RMD|discriminate|]. intros x I. apply (LMD x). unfold md, pdf_metadata. apply in_or_app. now left. }
  (* the cluster *)
  assert (HCL : (forall x, In x cl -> no_lf x) /\
    (match strip_lines (cl ++ [""])%list with ["None"] => Ok None | l => do m <- cluster pl' bl' l; Ok (Some m) end) = Ok (option_map (copy_cluster pl' bl') (e_cluster e))).
  { destruct (e_cluster e) as [m|] eqn:EC.
    - destruct (SM m eq_refl) as (NF & NSL & NEV & NRO & SPK & SBS). split.
      + unfold mc_writestr in ECL. cbn [bind] in ECL. destruct (match mc_funcs m with None => _ | Some fs => _ end) as [q1|] eqn:E1; [|discriminate]. cbn [bind] in ECL.
        destruct (match mc_base m with None => _ | Some b => _ end) as [q2|] eqn:E2; [|discriminate]. cbn [bind] in ECL.
        destruct (write_parts repr vint feq "# ModelPeak" pl (mc_peaks m)) as [q3|] eqn:E3; [|discriminate]. cbn [bind] in ECL. apply ok_eq in ECL.
        assert (LPA : forall l p fl x, savable_part p -> part_lines repr vint feq l p = Ok fl -> In x fl -> no_lf x).
        { intros l p fl x SP EL I. destruct (part_lines_good repr eval vint as_int is_none feq npars as_list truth vlist INTP l p fl SP EL) as (_ & P & _). now apply one_line_no_lf, (P x I). }
        assert (Q1 : no_lf q1). { destruct (mc_funcs m) as [fs|]; [|apply ok_eq in E1; now subst q1]. destruct (indices feq pl fs) as [is|]; [|discriminate]. cbn [bind] in E1. apply ok_eq in E1. subst q1. apply no_lf_app; [reflexivity|apply (py_ints PY)]. }
        assert (Q2 : forall x, In x q2 -> no_lf x).
        { destruct (mc_base m) as [b|]; [|apply ok_eq in E2; subst q2; intros x [ <- |[]]; reflexivity]. destruct (part_lines repr vint feq bl b) as [fl|] eqn:EL; [|discriminate]. cbn [bind] in E2. apply ok_eq in E2. subst q2.
          intros x I. apply in_app_or in I as [I|[ <- |[]]]; [|reflexivity]. exact (LPA bl b fl x (SBS b eq_refl) EL I). }
        assert (Q3 : forall x, In x q3 -> no_lf x).
        { clear - E3 SPK LPA. revert q3 E3. induction (mc_peaks m) as [|p r IH]; intros q3 E3; cbn [write_parts] in E3; [apply ok_eq in E3; subst q3; intros x []|].
          destruct (part_lines repr vint feq pl p) as [fl|] eqn:EL; [|discriminate]. cbn [bind] in E3. destruct (write_parts repr vint feq "# ModelPeak" pl r) as [t|]; [|discriminate]. cbn [bind] in E3. apply ok_eq in E3. subst q3.
          intros x [ <- |I]; [reflexivity|]. apply in_app_or in I as [I|[ <- |I]]; [exact (LPA pl p fl x (SPK p (or_introl eq_refl)) EL I)|reflexivity|]. exact (IH (fun q J => SPK q (or_intror J)) t eq_refl x I). }
        subst cl. intros x [ <- |[ <- |[ <- |I]]]; [exact Q1| |apply no_lf_app; [reflexivity|exact NSL]|].
        * apply no_lf_app; [reflexivity|]. destruct (mc_eval m) as [nm|]; [now apply NEV|reflexivity].
        * cbn [app] in I. destruct I as [ <- |I]; [reflexivity|]. apply in_app_or in I as [I|[ <- |I]]; [now apply Q2|reflexivity|]. apply in_app_or in I as [I|[ <- |[ <- |I]]]; [now apply Q3|reflexivity|reflexivity|now apply NRO].
      + pose proof (CL m pl bl pl' bl' cl eq_refl ECL CP CB) as CC.
        destruct (writestr_shape repr vnone vint vstr fclass fmodule fbase fmeta ftext feq safelist show_ints show_index m (Some pl) (Some bl) cl ECL) as (t & rest & EW).
        assert (ST : strip_lines (cl ++ [""])%list = strip_lines cl) by (unfold strip_lines; rewrite EW; cbn [app drop_blank_lines append]; change (String "p" ("eak_funcs=" ++ t)) with ("peak_funcs=" ++ t); rewrite !app_comm_cons; apply drop_end_app).
        rewrite ST. assert (SH : exists r, strip_lines cl = ("peak_funcs=" ++ t) :: r).
        { rewrite EW. unfold strip_lines. cbn [drop_blank_lines append drop_blank_lines_at_end]. destruct (drop_blank_lines_at_end _); eexists; reflexivity. }
        destruct SH as (r & SH). rewrite SH in CC |- *. cbn [append] in CC |- *. cbv beta iota. rewrite CC. reflexivity.
    - apply ok_eq in ECL. subst cl. split; [intros x [ <- |[]]; reflexivity|reflexivity]. }
  destruct HCL as (LCL & RCL).
  (* the lines *)
  set (H6 := [l1; l2; l3; "##### PDF Peak Extraction"]).
  set (H5 := (H6 ++ "## BaselineFunctions" :: bf)%list). set (H4 := (H5 ++ "## PeakFunctions" :: pf)%list). set (H3 := (H4 ++ "# BaselineObject" :: bo)%list).
  set (H2 := (H3 ++ "## InitialPeaks" :: ip)%list). set (H1 := (H2 ++ "# SrMiseMetadata" :: [pi; cr; l4; l5])%list). set (H0 := (H1 ++ "# Metadata" :: md)%list).
  set (HD := (H0 ++ "##### start data" :: lab :: rows)%list).
  assert (EL : (ls ++ [""])%list = (HD ++ "##### Results" :: l6 :: "### ModelCluster" :: cl ++ [""])%list).
  { subst ls. unfold HD, H0, H1, H2, H3, H4, H5, H6. rewrite <- !app_assoc. cbn [app]. rewrite <- !app_assoc. cbn [app]. repeat (rewrite <- ?app_assoc; cbn [app]). reflexivity. }
  assert (LPL : plain pi /\ no_lf pi) by (subst pi; split; [reflexivity|now apply no_lf_app]).
  assert (LCR : plain cr /\ no_lf cr) by (split; [reflexivity|apply no_lf_app; [reflexivity|apply word_no_lf, (py_float PY c)]]).
  assert (L4 : plain l4 /\ no_lf l4) by (split; [reflexivity|apply no_lf_app; [reflexivity|apply word_no_lf, WN]]).
  assert (L5 : plain l5 /\ no_lf l5) by (split; [reflexivity|now apply no_lf_app]).
  assert (L6 : plain l6 /\ no_lf l6) by (split; [reflexivity|now apply no_lf_app]).
  (* a line of each section is not the head of another one *)
  assert (NS : forall nm, In nm ["Results"; "start data"; "Metadata"; "SrMiseMetadata"; "InitialPeaks"; "BaselineObject"; "PeakFunctions"; "BaselineFunctions"] ->
    Forall (fun l => is_section nm l = false) bf /\ Forall (fun l => is_section nm l = false) pf /\ Forall (fun l => is_section nm l = false) bo /\ Forall (fun l => is_section nm l = false) ip /\
    Forall (fun l => is_section nm l = false) [pi; cr; l4; l5] /\ Forall (fun l => is_section nm l = false) md /\ Forall (fun l => is_section nm l = false) (lab :: rows)).
  { intros nm IN.
    assert (NIX : forall i, is_section nm (("# " ++ "BaselineFunction" ++ " ") ++ show_index i) = false /\ is_section nm (("# " ++ "PeakFunction" ++ " ") ++ show_index i) = false /\ is_section nm "# InitialPeak" = false /\ is_section nm lab = false).
    { intros i. rewrite LAB. cbn [In] in IN. repeat destruct IN as [ <- |IN]; try (repeat split; reflexivity). destruct IN. }
    split; [|split; [|split; [|split; [|split; [|split]]]]].
    - apply all_not. intros x I. destruct (LBF x I) as (_ & [P|(i & ->)]); [now apply plain_no_section|apply NIX].
    - apply all_not. intros x I. destruct (LPF x I) as (_ & [P|(i & ->)]); [now apply plain_no_section|apply NIX].
    - apply all_not. intros x I. apply plain_no_section, (LBO x I).
    - apply all_not. intros x I. destruct (LIP x I) as (_ & [P| -> ]); [now apply plain_no_section|apply (NIX 0%nat)].
    - apply all_not. intros x [ <- |[ <- |[ <- |[ <- |[]]]]]; apply plain_no_section; tauto.
    - apply all_not. intros x I. apply plain_no_section, (LMD x I).
    - apply all_not. intros x [ <- |I]; [apply (NIX 0%nat)|]. apply plain_no_section, (LRO x I). }
  Ltac sect := repeat first [apply Forall_app; split | apply Forall_cons; [reflexivity|] | apply Forall_nil | assumption].
  assert (C1 : split_section "Results" (HD ++ "##### Results" :: l6 :: "### ModelCluster" :: cl ++ [""])%list = Some (HD, (l6 :: "### ModelCluster" :: cl ++ [""])%list)).
  { apply split_at; [|reflexivity]. destruct (NS "Results" ltac:(cbn; tauto)) as (? & ? & ? & ? & ? & ? & ?). unfold HD, H0, H1, H2, H3, H4, H5, H6. sect. }
  assert (C2 : split_section "start data" HD = Some (H0, lab :: rows)).
  { apply split_at; [|reflexivity]. destruct (NS "start data" ltac:(cbn; tauto)) as (? & ? & ? & ? & ? & ? & ?). unfold H0, H1, H2, H3, H4, H5, H6. sect. }
  assert (C3 : cut_section "Metadata" H0 = (H1, Some md)).
  { apply cut_at; [|reflexivity]. destruct (NS "Metadata" ltac:(cbn; tauto)) as (? & ? & ? & ? & ? & ? & ?). unfold H1, H2, H3, H4, H5, H6. sect. }
  assert (C4 : cut_section "SrMiseMetadata" H1 = (H2, Some [pi; cr; l4; l5])).
  { apply cut_at; [|reflexivity]. destruct (NS "SrMiseMetadata" ltac:(cbn; tauto)) as (? & ? & ? & ? & ? & ? & ?). unfold H2, H3, H4, H5, H6. sect. }
  assert (C5 : cut_section "InitialPeaks" H2 = (H3, Some ip)).
  { apply cut_at; [|reflexivity]. destruct (NS "InitialPeaks" ltac:(cbn; tauto)) as (? & ? & ? & ? & ? & ? & ?). unfold H3, H4, H5, H6. sect. }
  assert (C6 : cut_section "BaselineObject" H3 = (H4, Some bo)).
  { apply cut_at; [|reflexivity]. destruct (NS "BaselineObject" ltac:(cbn; tauto)) as (? & ? & ? & ? & ? & ? & ?). unfold H4, H5, H6. sect. }
  assert (C7 : cut_section "PeakFunctions" H4 = (H5, Some pf)).
  { apply cut_at; [|reflexivity]. destruct (NS "PeakFunctions" ltac:(cbn; tauto)) as (? & ? & ? & ? & ? & ? & ?). unfold H5, H6. sect. }
  assert (C8 : cut_section "BaselineFunctions" H5 = (H6, Some bf)) by (apply cut_at; [unfold H6; sect|reflexivity]).
  assert (C9 : cut_section "ModelCluster" (l6 :: "### ModelCluster" :: cl ++ [""])%list = ([l6], Some (cl ++ [""])%list)) by (apply (cut_at "ModelCluster" [l6]); [sect|reflexivity]).
  (* splitting the text *)
  assert (SPL : split_nl "" s = (HD ++ "##### Results" :: l6 :: "### ModelCluster" :: cl ++ [""])%list).
  { rewrite <- EL, <- WS. assert (NL : ls <> []) by (rewrite <- WL; discriminate). apply split_written; [exact NL|]. intros x I.
    assert (J : In x (HD ++ "##### Results" :: l6 :: "### ModelCluster" :: cl ++ [""])%list) by (rewrite <- EL; apply in_or_app; now left).
    unfold HD, H0, H1, H2, H3, H4, H5, H6 in J.
    repeat match type of J with In _ (_ ++ _)%list => apply in_app_or in J as [J|J] | In _ (_ :: _) => destruct J as [ <- |J] end; try reflexivity; try tauto.
    all: try (now apply LBF); try (now apply LPF); try (now apply LBO); try (now apply LIP); try (now apply LMD); try (now apply LRO); try (now apply LCL); try exact LLF; try (now apply no_lf_app); try (destruct J).
  }
  (* reading *)
  assert (INF : info (lab :: rows) = "#L" :: map fst (present (columns e))).
  { unfold info. assert (CF : comments_first (lab :: rows) = [lab]).
    { rewrite LAB at 1. cbn [comments_first]. cbn [Ascii.eqb Bool.eqb]. rewrite LAB. f_equal. destruct rows as [|[|ch x] r]; [reflexivity|reflexivity|]. destruct (LRO _ (or_introl eq_refl)) as (_ & P). cbn in P. cbn [comments_first]. now rewrite P. }
    rewrite CF. cbn [find]. assert (IL : is_label lab = true) by (rewrite LAB; reflexivity). rewrite IL. exact LWO. }
  assert (SKR : skip_comments (lab :: rows) = rows).
  { rewrite LAB. cbn [skip_comments]. change (Ascii.eqb "#" "#") with true. cbv iota. destruct rows as [|[|ch x] r]; [reflexivity|reflexivity|]. destruct (LRO _ (or_introl eq_refl)) as (_ & P). cbn in P. cbn [skip_comments]. now rewrite P. }
  assert (ARR : append_rows parse (map (fun k => (k, [])) (filter (fun k => existsb (String.eqb k) ("#L" :: map fst (present (columns e)))) ["x"; "y"; "dx"; "dy"] ++ (if existsb (String.eqb "edy") ("#L" :: map fst (present (columns e))) then ["edy"] else []))%list) rows
     = Ok (map (fun ka => (fst ka, map rnd (snd ka))) (present (columns e)))).
  { assert (NM : (filter (fun k => existsb (String.eqb k) ("#L" :: map fst (present (columns e)))) ["x"; "y"; "dx"; "dy"] ++ (if existsb (String.eqb "edy") ("#L" :: map fst (present (columns e))) then ["edy"] else []))%list = map fst (present (columns e))).
    { unfold columns. destruct (e_x e), (e_y e), (e_dx e), (e_dy e), (e_edy e); reflexivity. }
    rewrite NM, map_map. destruct (present (columns e)) as [|ka cols] eqn:EC.
    - rewrite <- numlines_rows, EC in ERO. cbn in ERO. apply ok_eq in ERO. subst rows. reflexivity.
    - rewrite <- EC in *. assert (NC0 : present (columns e) <> []) by (rewrite EC; discriminate).
      destruct (rows_read gen parse rnd (fun v => conj (proj1 (py_float PY v)) (proj2 (proj2 (py_float PY v)))) (rows_of e) 0 (present (columns e)) rows NC0 ERO) as (_ & A).
      assert (B1 : map (fun ka => (fst ka, map rnd (firstn 0 (snd ka)))) (present (columns e)) = map (fun x : string * list N => (fst x, [])) (present (columns e))) by (apply map_ext; reflexivity). rewrite B1 in A. rewrite A. f_equal.
      apply map_ext_in. intros [k a] I. cbn [fst snd]. f_equal. f_equal. apply firstn_all2. rewrite (LA a); [lia|]. apply present_arrays. eauto. }
  destruct (py_float PY c) as (WC & _ & PC).
  eexists s, _, pl, pl', bl, bl'. split; [exact WR|]. split.
  - unfold readstr. rewrite SPL, C1. cbn [need bind]. rewrite C2. cbn [need bind]. rewrite INF, ED. cbn [bind]. rewrite C3, C4, C5, C6, C7, C8. cbn [need bind]. rewrite RBF. cbn [bind]. rewrite RPF. cbn [bind]. rewrite RBO. cbn [bind]. rewrite RIP. cbn [bind].
    assert (F1 : field "pf" [pi; cr; l4; l5] = Some tp) by (rewrite EPI'; reflexivity). assert (F2 : field "cres" [pi; cr; l4; l5] = Some (gen c)) by (rewrite EPI'; reflexivity).
    assert (F3 : field "ModelEvaluator" [pi; cr; l4; l5] = Some n) by (rewrite EPI'; reflexivity). assert (F4 : field "Range" [pi; cr; l4; l5] = Some (repr (e_rng e))) by (rewrite EPI'; reflexivity).
    assert (F5 : field "extraction_type" [l6] = Some (repr (e_type e))) by reflexivity.
    rewrite F1, F2, F3, F4. cbn [bind]. rewrite ROI. cbn [bind]. rewrite RPV. cbn [bind]. rewrite (strip_word (gen c) WC), PC. cbn [bind]. rewrite (strip_word n WN), EV. cbn [bind]. rewrite RG2. cbn [bind]. rewrite RMD'. cbn [bind].
    rewrite SKR, ARR. cbn [bind]. rewrite C9, F5, TY2. cbn [bind need]. rewrite RCL. cbn [bind]. reflexivity.
  - cbn [e_pf e_initial e_baseline e_cres e_method e_rng e_type e_x e_y e_dx e_dy e_edy e_cluster e_more option_map]. repeat (split; [first [exact CP|exact CB|exact SPV|exact SIV|exact SBO|reflexivity|symmetry; exact EM|idtac]|]).
    1-5: unfold columns; destruct (e_x e), (e_y e), (e_dx e), (e_dy e), (e_edy e); reflexivity.
    exact MDA.
Qed.
End Main.

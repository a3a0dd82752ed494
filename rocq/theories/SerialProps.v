(** Properties C122-C129: the text form of functions, parts, models and sequences. *)
From Coq Require Import String Ascii DecimalString.
From Verif Require Import Prelude Functions Tracer Serial.
From Verif Require FunctionsProps TracerProps.
Open Scope string_scope.

(** ** Specification *)
(** [p] holds for every character of [s]. *)
Fixpoint all_chars (p : ascii -> bool) (s : string) : bool :=
  match s with "" => true | String c r => (p c && all_chars p r)%bool end.
(** No line break. *)
Definition one_line (s : string) : Prop := all_chars (fun c => negb (isbreak c)) s = true.
(** A keyword: not empty, no blanks, no equals sign. *)
Definition keyword (s : string) : Prop := s <> "" /\ all_chars (fun c => negb (isblank c) && negb (Ascii.eqb c "="))%bool s = true.
(** No equals sign before the first blank. *)
Fixpoint no_eq_in_first_word (s : string) : bool :=
  match s with "" => true | String c r => if isblank c then true else (negb (Ascii.eqb c "=") && no_eq_in_first_word r)%bool end.
(** Starts and ends with something else than a blank. *)
Definition first_nonblank (s : string) : Prop := match s with "" => False | String c _ => isblank c = false end.
Fixpoint last_nonblank (s : string) : Prop := match s with "" => False | String c "" => isblank c = false | String _ r => last_nonblank r end.
Definition trimmed (s : string) : Prop := first_nonblank s /\ last_nonblank s.

(** ** Strings *)
Lemma app_assoc_s (a b c : string) : (a ++ b) ++ c = a ++ b ++ c.
Proof. induction a as [|x a IH]; [reflexivity|]. cbn. now rewrite IH. Qed.
Lemma app_nil_s (a : string) : a ++ "" = a.
Proof. induction a as [|x a IH]; [reflexivity|]. cbn. now rewrite IH. Qed.
Lemma all_app p a b : all_chars p (a ++ b) = (all_chars p a && all_chars p b)%bool.
Proof. induction a as [|x a IH]; [reflexivity|]. cbn. now rewrite IH, andb_assoc. Qed.
Lemma one_line_app a b : one_line (a ++ b) <-> one_line a /\ one_line b.
Proof. unfold one_line. rewrite all_app. apply andb_true_iff. Qed.
Lemma one_line_join sep ls : one_line sep -> (forall l, In l ls -> one_line l) -> one_line (join sep ls).
Proof.
  intros S H. induction ls as [|l r IH]; [reflexivity|]. cbn [join]. destruct r as [|l2 r]; [apply H; now left|].
  rewrite !one_line_app. split; [apply H; now left|]. split; [exact S|]. apply IH. intros x Hx. apply H. now right.
Qed.
Lemma split_step cur l rest : one_line l -> splitlines_from cur (l ++ String LF rest) = (cur ++ l) :: splitlines_from "" rest.
Proof.
  revert cur. induction l as [|c l IH]; intros cur H.
  - cbn [append splitlines_from]. change (isbreak LF) with true. cbn iota. rewrite app_nil_s. destruct rest as [|d r]; [reflexivity|]. reflexivity.
  - unfold one_line in H. cbn [all_chars] in H. apply andb_true_iff in H as [H1 H2]. cbn [append splitlines_from]. destruct (isbreak c); [discriminate|]. rewrite IH by exact H2. now rewrite app_assoc_s.
Qed.
Lemma split_end cur l : one_line l -> (cur ++ l) <> "" -> splitlines_from cur l = [cur ++ l].
Proof.
  revert cur. induction l as [|c l IH]; intros cur H N.
  - cbn [splitlines_from]. rewrite app_nil_s in *. destruct cur; [contradiction|reflexivity].
  - unfold one_line in H. cbn [all_chars] in H. apply andb_true_iff in H as [H1 H2]. cbn [splitlines_from]. destruct (isbreak c); [discriminate|]. 
    rewrite IH; [now rewrite app_assoc_s|exact H2|]. rewrite app_assoc_s. exact N.
Qed.
(** Text of lines, with and without a line break at the end. *)
Lemma splitlines_joined ls : ls <> [] -> (forall l, In l ls -> one_line l) -> splitlines (join newline ls ++ newline) = ls.
Proof.
  unfold splitlines. induction ls as [|l r IH]; intros NE H; [contradiction|]. cbn [join]. destruct r as [|l2 r].
  - unfold newline. rewrite split_step by (apply H; now left). reflexivity.
  - rewrite !app_assoc_s. unfold newline at 1. cbn [append]. rewrite split_step by (apply H; now left). cbn [append]. f_equal. apply IH; [discriminate|]. intros x Hx. apply H. now right.
Qed.
Lemma splitlines_joined_end ls : ls <> [] -> (forall l, In l ls -> one_line l) -> last ls "" <> "" -> splitlines (join newline ls) = ls.
Proof.
  unfold splitlines. induction ls as [|l r IH]; intros NE H L; [contradiction|]. cbn [join]. destruct r as [|l2 r].
  - apply split_end; [apply H; now left|exact L].
  - unfold newline at 1. cbn [append]. rewrite split_step by (apply H; now left). cbn [append]. f_equal. apply IH; [discriminate| |exact L]. intros x Hx. apply H. now right.
Qed.
Lemma rstrip_keep s : last_nonblank s -> rstrip s = s.
Proof.
  induction s as [|c r IH]; [intros []|]. cbn [rstrip]. destruct r as [|d r'].
  - cbn. intros H. now rewrite H.
  - cbn [last_nonblank]. intros H. rewrite (IH H). reflexivity.
Qed.
Lemma rstrip_break s : last_nonblank s -> rstrip (s ++ newline) = s.
Proof.
  induction s as [|c r IH]; [intros []|]. cbn [append rstrip]. destruct r as [|d r'].
  - intros H. change (rstrip ("" ++ newline)) with "". cbn in H. now rewrite H.
  - intros H. rewrite (IH H). reflexivity.
Qed.
Lemma strip_break s : trimmed s -> strip (s ++ newline) = s.
Proof.
  intros [F L]. unfold strip. destruct s as [|c r]; [destruct F|]. cbn [append lstrip]. cbn in F. rewrite F. apply (rstrip_break (String c r) L).
Qed.
Lemma last_nonblank_app a b : last_nonblank b -> last_nonblank (a ++ b).
Proof.
  intros H. induction a as [|c a IH]; [exact H|]. cbn [append last_nonblank]. destruct (a ++ b) eqn:E; [destruct a; [|discriminate]; cbn in E; subst b; destruct H|exact IH].
Qed.
Lemma last_nonblank_join ls sep : ls <> [] -> last_nonblank (last ls "") -> last_nonblank (join sep ls).
Proof.
  induction ls as [|l r IH]; intros NE L; [contradiction|]. cbn [join]. destruct r as [|l2 r]; [exact L|]. apply last_nonblank_app, last_nonblank_app. apply IH; [discriminate|exact L].
Qed.

(** *** Lines *)
Lemma first_word_none t : no_eq_in_first_word t = true -> key_line t = None.
Proof.
  induction t as [|c r IH]; [reflexivity|]. cbn [no_eq_in_first_word key_line]. destruct (isblank c); [reflexivity|]. intros H. apply andb_true_iff in H as [H1 H2]. rewrite (IH H2).
  destruct r as [|d r']; [reflexivity|]. cbn [no_eq_in_first_word] in H2. destruct (isblank d) eqn:BD.
  - destruct (Ascii.eqb_spec d "="); [subst d; discriminate|reflexivity].
  - apply andb_true_iff in H2 as [H2 _]. destruct (Ascii.eqb d "="); [discriminate|reflexivity].
Qed.
Lemma key_line_spec k t : keyword k -> no_eq_in_first_word t = true -> key_line (k ++ "=" ++ t) = Some (k, t).
Proof.
  intros [NE K] T. induction k as [|c k IH]; [contradiction|]. cbn [all_chars] in K. apply andb_true_iff in K as [K1 K2]. apply andb_true_iff in K1 as [K1 _].
  change (String c k ++ "=" ++ t) with (String c (k ++ "=" ++ t)). cbn [key_line]. destruct (isblank c); [discriminate|]. destruct k as [|d k].
  - cbn [append]. assert (KN : key_line ("=" ++ t) = None).
    { cbn [append key_line]. change (isblank "="%char) with false. cbn iota. rewrite (first_word_none t T). destruct t as [|d t]; [reflexivity|]. cbn [no_eq_in_first_word] in T.
      destruct (isblank d) eqn:BD; [destruct (Ascii.eqb_spec d "="); [subst d; discriminate|reflexivity]|]. apply andb_true_iff in T as [T _]. destruct (Ascii.eqb d "="); [discriminate|reflexivity]. }
    cbn [append] in KN. rewrite KN. reflexivity.
  - rewrite IH; [reflexivity|discriminate|exact K2].
Qed.
Lemma split_eq_spec k t : keyword k -> split_eq (k ++ "=" ++ t) = Some (k, t).
Proof.
  intros [_ K]. induction k as [|c k IH]; [reflexivity|]. cbn [all_chars] in K. apply andb_true_iff in K as [K1 K2]. apply andb_true_iff in K1 as [_ K1].
  change (String c k ++ "=" ++ t) with (String c (k ++ "=" ++ t)). cbn [split_eq]. destruct (Ascii.eqb c "="); [discriminate|]. rewrite (IH K2). reflexivity.
Qed.
Lemma entries_keys (kts : list (string * string)) : (forall k t, In (k, t) kts -> keyword k /\ no_eq_in_first_word t = true) ->
  entries (map (fun kt => fst kt ++ "=" ++ snd kt) kts) = ([], map (fun kt => (fst kt, [snd kt])) kts).
Proof.
  induction kts as [|[k t] r IH]; intros H; [reflexivity|]. cbn [map entries]. rewrite IH by (intros; apply H; now right). destruct (H k t) as [H1 H2]; [now left|]. cbn [fst snd].
  rewrite (key_line_spec k t H1 H2). destruct (map (fun kt : string * string => (fst kt, [snd kt])) r); reflexivity.
Qed.

(** *** Dictionaries *)
Section Dict.
Context {A : Type}.
Implicit Type d : list (string * A).
Lemma dlookup_none k d : ~ In k (map fst d) -> dlookup k d = None.
Proof.
  induction d as [|[k' a] r IH]; intros H; [reflexivity|]. cbn [dlookup]. rewrite IH by (intros C; apply H; now right). destruct (String.eqb_spec k k'); [subst; exfalso; apply H; now left|reflexivity].
Qed.
Lemma dlookup_head k a d : ~ In k (map fst d) -> dlookup k ((k, a) :: d) = Some a.
Proof. intros H. cbn [dlookup]. rewrite (dlookup_none k d H), String.eqb_refl. reflexivity. Qed.
Lemma ddelete_id k d : ~ In k (map fst d) -> ddelete k d = d.
Proof.
  induction d as [|[k' a] r IH]; intros H; [reflexivity|]. cbn [ddelete]. destruct (String.eqb_spec k k'); [subst; exfalso; apply H; now left|]. f_equal. apply IH. intros C. apply H. now right.
Qed.
End Dict.

(** ** C122, C123 *)
Section Funs.
Context {V F : Type}.
Variable repr : V -> string.
Variable eval : string -> result V.
Variables (vnone : V) (vint : Z -> V) (vstr : string -> V).
Variable as_int : V -> option Z.
Variable is_none : V -> bool.
Variable fclass fmodule : F -> string.
Variable fbase : F -> option F.
Variable fmeta : F -> list (string * V).
Variable ftext : V -> string.
Variable feq : F -> F -> bool.
Variable construct : V -> V -> option F -> list (string * V) -> result F.
Notation fun_lines := (fun_lines repr vnone vint vstr fclass fmodule fbase fmeta ftext feq).
Notation fun_writestr := (fun_writestr repr vnone vint vstr fclass fmodule fbase fmeta ftext feq).
Notation fun_factory := (fun_factory eval as_int is_none construct).

(** A text that eval turns into [v], on one line and without an equals sign in its first
    word (which numbers, names and lists of numbers have not). *)
Definition text_of (t : string) (v : V) : Prop := eval t = Ok v /\ one_line t /\ no_eq_in_first_word t = true.
(** What eval gives for the values every function writes. *)
Hypothesis NONE : text_of (repr vnone) vnone /\ is_none vnone = true.
Hypothesis INT : forall z, text_of (repr (vint z)) (vint z) /\ is_none (vint z) = false /\ as_int (vint z) = Some z.
(** A function with a usable description. *)
Definition describable (f : F) : Prop :=
  text_of (repr (vstr (fclass f))) (vstr (fclass f)) /\ text_of (repr (vstr (fmodule f))) (vstr (fmodule f)) /\
  NoDup (map fst (fmeta f)) /\
  forall k v, In (k, v) (fmeta f) -> keyword k /\ ~ In k ["function"; "module"; "base"] /\ text_of (ftext v) v.

Lemma keyword_one_line k : keyword k -> one_line k.
Proof.
  intros [_ H]. unfold one_line. induction k as [|c k IH]; [reflexivity|]. cbn [all_chars] in *. apply andb_true_iff in H as [H1 H2]. rewrite (IH H2), andb_true_r.
  apply andb_true_iff in H1 as [H1 _]. destruct (isbreak c) eqn:E; [|reflexivity]. exfalso. apply negb_true_iff in H1. revert E H1. unfold isbreak, isblank. generalize (nat_of_ascii c). intros n.
  rewrite !orb_true_iff, orb_false_iff, !andb_true_iff, !andb_false_iff, !Nat.leb_le, !Nat.leb_gt. lia.
Qed.
Lemma evals_spec (kvs : list (string * V)) (txt : string * V -> string) : (forall kv, In kv kvs -> eval (txt kv) = Ok (snd kv)) ->
  evals eval (map (fun kv => (fst kv, [txt kv])) kvs) = Ok kvs.
Proof.
  induction kvs as [|[k v] r IH]; intros H; [reflexivity|]. cbn [map evals]. cbn [join]. rewrite (H (k, v)) by (now left). cbn [snd fst bind]. rewrite IH by (intros; apply H; now right). reflexivity.
Qed.
Lemma get_head {A} k (a : A) d : ~ In k (map fst d) -> get k ((k, a) :: d) = Ok a.
Proof. intros H. unfold get. now rewrite dlookup_head. Qed.

(** Reading the text of a function calls the class of the same name in the same module, with
    the same metadata, and with the base at the same index of the list it is read with. *)
Theorem C122_function_survives_text :
  forall f baselist baselist' b',
    describable f ->
    match fbase f with
    | None => b' = None
    | Some g => exists i g', findex feq g baselist = Some i /\ nth_error baselist' i = Some g' /\ b' = Some g'
    end ->
    exists s, fun_writestr baselist f = Ok s /\
      fun_factory s baselist' = construct (vstr (fclass f)) (vstr (fmodule f)) b' (fmeta f).
Proof.
  intros f bl bl' b' (DC & DM & ND & DK) HB. destruct NONE as [(N1 & N2 & N3) N4].
  assert (BT : exists bv, match fbase f with None => Ok vnone | Some g => match findex feq g bl with Some i => Ok (vint (Z.of_nat i)) | None => Err ValueError end end = Ok bv /\ text_of (repr bv) bv /\
    (if is_none bv then Ok None else match as_int bv with None => Err TypeError | Some i => do g <- factory_ref i bl'; Ok (Some g) end) = Ok b').
  { destruct (fbase f) as [g|]; [|exists vnone; rewrite N4, HB; repeat split; auto]. destruct HB as (i & g' & E1 & E2 & ->). rewrite E1. exists (vint (Z.of_nat i)).
    destruct (INT (Z.of_nat i)) as (I1 & I2 & I3). rewrite I2, I3. split; [reflexivity|]. split; [exact I1|].
    assert (L : (i < List.length bl')%nat) by (apply nth_error_Some; congruence).
    destruct (FunctionsProps.C104_factory_index_behaviour _ bl' (Z.of_nat i)) as (_ & _ & C & _). destruct C as (a & C1 & C2); [lia|]. rewrite C1. cbn [bind]. rewrite Nat2Z.id in C2. congruence. }
  destruct BT as (bv & B1 & (B2 & B3 & B4) & B5). unfold Serial.fun_writestr, Serial.fun_lines. rewrite B1. cbn [bind]. eexists. split; [reflexivity|].
  set (kvs := (("function", vstr (fclass f)) :: ("module", vstr (fmodule f)) :: ("base", bv) :: fmeta f)%list).
  set (txt := fun kv : string * V => if existsb (String.eqb (fst kv)) ["function"; "module"; "base"] then repr (snd kv) else ftext (snd kv)).
  assert (TX : forall k v, In (k, v) (fmeta f) -> txt (k, v) = ftext v).
  { intros k v Hi. unfold txt. cbn [fst snd]. destruct (existsb _ _) eqn:E; [|reflexivity]. exfalso. apply existsb_exists in E as (x & Hx & E). apply String.eqb_eq in E. subst x. now apply (DK k v Hi). }
  assert (EL : (("function=" ++ repr (vstr (fclass f))) :: ("module=" ++ repr (vstr (fmodule f))) :: ("base=" ++ repr bv) :: map (fun kv => fst kv ++ "=" ++ ftext (snd kv)) (fmeta f)) =
    map (fun kt => fst kt ++ "=" ++ snd kt) (map (fun kv => (fst kv, txt kv)) kvs)).
  { unfold kvs. cbn [map fst snd]. unfold txt at 1 2 3. cbn. do 3 f_equal. rewrite map_map. apply map_ext_in. intros [k v] Hi. cbn [fst snd]. now rewrite (TX k v Hi). }
  assert (KW : forall k v, In (k, v) kvs -> keyword k /\ text_of (txt (k, v)) v).
  { intros k v [H|[H|[H|H]]]; [injection H as <- <-; split; [split; [discriminate|reflexivity]|]..|]; [exact DC|exact DM|repeat split; assumption|].
    rewrite (TX k v H). split; apply (DK k v H). }
  rewrite EL. unfold Serial.fun_factory. rewrite splitlines_joined.
  2:{ unfold kvs. discriminate. }
  2:{ intros l Hl. rewrite map_map in Hl. apply in_map_iff in Hl as ([k v] & <- & Hi). destruct (KW k v Hi) as (K1 & _ & K2 & _). cbn [fst snd]. rewrite !one_line_app. split; [now apply keyword_one_line|]. split; [reflexivity|exact K2]. }
  rewrite entries_keys. 2:{ intros k t Hi. apply in_map_iff in Hi as ([k' v] & E & Hi). injection E as <- <-. destruct (KW k' v Hi) as (K1 & _ & _ & K2). auto. }
  cbn [snd]. rewrite map_map. cbn [fst snd]. rewrite evals_spec by (intros [k v] Hi; apply (KW k v Hi)). cbn [bind]. unfold kvs.
  assert (NI : forall k, In k ["function"; "module"; "base"] -> ~ In k (map fst (fmeta f))).
  { intros k Hk C. apply in_map_iff in C as ([k' v] & <- & Hi). now apply (DK k' v Hi). }
  pose proof (NI "function" ltac:(cbn; tauto)) as NF. pose proof (NI "module" ltac:(cbn; tauto)) as NM. pose proof (NI "base" ltac:(cbn; tauto)) as NB.
  rewrite get_head by (cbn [map fst]; intros [C|[C|C]]; [discriminate|discriminate|contradiction]). cbn [bind].
  assert (D1 : ddelete "function" (("function", vstr (fclass f)) :: ("module", vstr (fmodule f)) :: ("base", bv) :: fmeta f)%list = (("module", vstr (fmodule f)) :: ("base", bv) :: fmeta f)%list).
  { cbn [ddelete String.eqb]. cbn. now rewrite ddelete_id. }
  rewrite D1, get_head by (cbn [map fst]; intros [C|C]; [discriminate|contradiction]). cbn [bind].
  assert (D2 : ddelete "module" (("module", vstr (fmodule f)) :: ("base", bv) :: fmeta f)%list = (("base", bv) :: fmeta f)%list).
  { cbn. now rewrite ddelete_id. }
  rewrite D2, get_head by exact NB. cbn [bind]. assert (D3 : ddelete "base" (("base", bv) :: fmeta f)%list = fmeta f) by (cbn; now rewrite ddelete_id). rewrite D3.
  destruct (is_none bv); [injection B5 as <-; reflexivity|]. destruct (as_int bv) as [i|]; [|discriminate]. destruct (factory_ref i bl') as [g|x]; [|discriminate]. injection B5 as <-. reflexivity.
Qed.

(** A list in which every base comes earlier (C19) is read back function by function:
    same classes, modules and metadata, and the bases are the copies of the bases. *)
Variable clone : F -> option F -> F.
Theorem C123_function_list_survives_text :
  (forall f g, feq f g = true <-> f = g) ->
  forall l, NoDup l ->
    (forall f, In f l -> describable f) ->
    (forall i f g, nth_error l i = Some f -> fbase f = Some g -> exists j, (j < i)%nat /\ nth_error l j = Some g) ->
    (* the classes accept their own metadata *)
    (forall f b, In f l -> (b = None <-> fbase f = None) -> construct (vstr (fclass f)) (vstr (fmodule f)) b (fmeta f) = Ok (clone f b)) ->
    exists ss l', write_funs repr vnone vint vstr fclass fmodule fbase fmeta ftext feq l l = Ok ss /\
      read_funs eval as_int is_none construct ss [] = Ok l' /\ List.length l' = List.length l /\
      forall i f, nth_error l i = Some f ->
        match fbase f with
        | None => nth_error l' i = Some (clone f None)
        | Some g => exists j g', nth_error l j = Some g /\ nth_error l' j = Some g' /\ nth_error l' i = Some (clone f (Some g'))
        end.
Proof.
  intros FE l ND DS OR CO.
  assert (FI : forall j g, nth_error l j = Some g -> findex feq g l = Some j).
  { clear - FE ND. induction l as [|f r IH]; intros j g E; [destruct j; discriminate|]. inversion ND as [|? ? N1 N2]; subst. cbn [findex].
    destruct (feq g f) eqn:EF; [apply FE in EF; subst g|].
    - destruct j as [|j]; [reflexivity|]. exfalso. apply N1. eapply nth_error_In, E.
    - destruct j as [|j]; [injection E as ->; assert (feq g g = true) by (now apply FE); congruence|]. rewrite (IH N2 j g E). reflexivity. }
  (* writing *)
  assert (GEN : forall post pre acc, l = (pre ++ post)%list -> List.length acc = List.length pre ->
    (forall i f, nth_error pre i = Some f ->
        match fbase f with
        | None => nth_error acc i = Some (clone f None)
        | Some g => exists j g', nth_error l j = Some g /\ nth_error acc j = Some g' /\ nth_error acc i = Some (clone f (Some g'))
        end) ->
    exists ss l', write_funs repr vnone vint vstr fclass fmodule fbase fmeta ftext feq l post = Ok ss /\
      read_funs eval as_int is_none construct ss acc = Ok l' /\ List.length l' = List.length l /\
      forall i f, nth_error l i = Some f ->
        match fbase f with
        | None => nth_error l' i = Some (clone f None)
        | Some g => exists j g', nth_error l j = Some g /\ nth_error l' j = Some g' /\ nth_error l' i = Some (clone f (Some g'))
        end).
  { induction post as [|f post IH]; intros pre acc EL LA INV.
    - rewrite app_nil_r in EL. subst pre. exists [], acc. auto.
    - assert (EF : nth_error l (List.length pre) = Some f) by (rewrite EL, nth_error_app2, Nat.sub_diag by lia; reflexivity).
      assert (IF : In f l) by (eapply nth_error_In, EF).
      assert (PRE : forall j h, (j < List.length pre)%nat -> nth_error l j = Some h -> nth_error pre j = Some h) by (intros j h Lj E; rewrite EL, nth_error_app1 in E by lia; exact E).
      assert (HB : exists b', match fbase f with None => b' = None | Some g => exists i g', findex feq g l = Some i /\ nth_error acc i = Some g' /\ b' = Some g' end /\ (b' = None <-> fbase f = None)).
      { destruct (fbase f) as [g|] eqn:B; [|exists None; tauto]. destruct (OR _ _ _ EF B) as (j & Lj & Ej). destruct (nth_error acc j) as [g'|] eqn:A; [|apply nth_error_None in A; lia].
        exists (Some g'). split; [exists j, g'; auto|]. split; discriminate. }
      destruct HB as (b' & HB & NB). destruct (C122_function_survives_text f l acc b' (DS f IF) HB) as (s & W & R). rewrite (CO f b' IF NB) in R.
      destruct (IH (pre ++ [f])%list (acc ++ [clone f b'])%list) as (ss & l' & W' & R' & LL & P).
      { now rewrite EL, <- app_assoc. } { rewrite !app_length. cbn. lia. }
      { assert (KEEP : forall i x, nth_error acc i = Some x -> nth_error (acc ++ [clone f b'])%list i = Some x).
        { intros i x E. rewrite nth_error_app1; [exact E|]. apply nth_error_Some. congruence. }
        intros i h Eh. destruct (lt_dec i (List.length pre)) as [Li|Li].
        - rewrite nth_error_app1 in Eh by lia. specialize (INV i h Eh). destruct (fbase h) as [g|]; [|now apply KEEP]. destruct INV as (j & g' & I1 & I2 & I3). exists j, g'. auto.
        - assert (i = List.length pre). { assert (i < List.length (pre ++ [f]))%nat by (apply nth_error_Some; congruence). rewrite app_length in H. cbn in H. lia. }
          subst i. rewrite nth_error_app2, Nat.sub_diag in Eh by lia. injection Eh as <-. assert (NW : nth_error (acc ++ [clone f b'])%list (List.length pre) = Some (clone f b')) by (rewrite <- LA, nth_error_app2, Nat.sub_diag by lia; reflexivity).
          destruct (fbase f) as [g|] eqn:B.
          + destruct HB as (j & g' & H1 & H2 & ->). destruct (OR _ _ _ EF B) as (j' & _ & Ej). pose proof (FI j' g Ej) as E'. rewrite H1 in E'. injection E' as <-. exists j, g'. auto.
          + rewrite HB in NW |- *. exact NW. }
      exists (s :: ss), l'. split; [cbn [write_funs]; rewrite W, W'; reflexivity|]. split; [cbn [read_funs]; rewrite R; exact R'|]. auto. }
  apply (GEN l [] []); [reflexivity|reflexivity|]. intros [|i] f E; discriminate.
Qed.
End Funs.

(** ** C124 *)
Section Parts.
Context {V F : Type}.
Variable repr : V -> string.
Variable eval : string -> result V.
Variables (vint : Z -> V).
Variable as_int : V -> option Z.
Variable is_none : V -> bool.
Variable feq : F -> F -> bool.
Variable npars : F -> nat.
Variable as_list : V -> option (list V).
Variable truth : V -> V.
Variable vlist : list V -> V.
Notation part := (@part V F).
Definition list_text (l : list V) : string := "[" ++ join ", " (map repr l) ++ "]".
(** A value written by repr and read by eval: one line, not ending with a blank. *)
Definition round_trips (v : V) : Prop := eval (repr v) = Ok v /\ one_line (repr v) /\ last_nonblank (repr v).
Definition list_round_trips (l : list V) : Prop := eval (list_text l) = Ok (vlist l) /\ as_list (vlist l) = Some l /\ is_none (vlist l) = false /\ forall v, In v l -> one_line (repr v).
Hypothesis INT : forall z, round_trips (vint z) /\ as_int (vint z) = Some z.
(** A part as its constructor leaves it. *)
Definition proper (p : part) : Prop :=
  List.length (part_pars p) = npars (part_owner p) /\ List.length (part_free p) = npars (part_owner p) /\ (forall v, In v (part_free p) -> truth v = v).

(** A peak or baseline read from its text is the one written, with the function at the same
    index of the list it is read with. *)
Theorem C124_part_survives_text :
  forall dremovable dstatic ownerlist ownerlist' p i f,
    proper p -> findex feq (part_owner p) ownerlist = Some i -> nth_error ownerlist' i = Some f -> npars f = npars (part_owner p) ->
    list_round_trips (part_pars p) -> list_round_trips (part_free p) -> round_trips (part_removable p) -> round_trips (part_static p) ->
    exists s, part_writestr repr vint feq ownerlist p = Ok s /\
      part_factory eval vint as_int is_none npars as_list truth dremovable dstatic s ownerlist' =
        Ok (mkPart f (part_pars p) (part_free p) (part_removable p) (part_static p)).
Proof.
  intros dr ds ol ol' p i f (P1 & P2 & P3) EI EF NF (A1 & A2 & A3 & A4) (B1 & B2 & B3 & B4) (R1 & R2 & R3) (S1 & S2 & S3).
  destruct (INT (Z.of_nat i)) as ((I1 & I2 & I3) & I4). unfold part_writestr, part_lines. rewrite EI. cbn [bind]. eexists. split; [reflexivity|].
  fold (list_text (part_pars p)) (list_text (part_free p)).
  set (ls := ["owner=" ++ repr (vint (Z.of_nat i)); "pars=" ++ list_text (part_pars p); "free=" ++ list_text (part_free p); "removable=" ++ repr (part_removable p); "static_owner=" ++ repr (part_static p)]).
  change ["owner=" ++ repr (vint (Z.of_nat i)); "pars=[" ++ join ", " (map repr (part_pars p)) ++ "]"; "free=[" ++ join ", " (map repr (part_free p)) ++ "]"; "removable=" ++ repr (part_removable p); "static_owner=" ++ repr (part_static p)] with ls.
  assert (OL : forall l, In l ls -> one_line l).
  { assert (LT : forall l, (forall v, In v l -> one_line (repr v)) -> one_line (list_text l)).
    { intros l H. unfold list_text. rewrite !one_line_app. split; [reflexivity|]. split; [|reflexivity]. apply one_line_join; [reflexivity|]. intros x Hx. apply in_map_iff in Hx as (v & <- & Hv). now apply H. }
    intros l [<-|[<-|[<-|[<-|[<-|[]]]]]]; rewrite one_line_app; (split; [reflexivity|]); auto. }
  assert (LN : last_nonblank (last ls "")) by (cbn [last ls]; now apply last_nonblank_app).
  unfold part_factory. rewrite strip_break.
  2:{ split; [reflexivity|]. apply last_nonblank_join; [discriminate|exact LN]. }
  rewrite splitlines_joined_end; [|discriminate|exact OL|intros C; rewrite C in LN; exact LN].
  unfold ls. cbn [part_dict].
  assert (SE1 : forall t, split_eq ("owner=" ++ t) = Some ("owner", t)) by (intros t; exact (split_eq_spec "owner" t ltac:(split; [discriminate|reflexivity]))).
  assert (SE2 : forall t, split_eq ("pars=" ++ t) = Some ("pars", t)) by (intros t; exact (split_eq_spec "pars" t ltac:(split; [discriminate|reflexivity]))).
  assert (SE3 : forall t, split_eq ("free=" ++ t) = Some ("free", t)) by (intros t; exact (split_eq_spec "free" t ltac:(split; [discriminate|reflexivity]))).
  assert (SE4 : forall t, split_eq ("removable=" ++ t) = Some ("removable", t)) by (intros t; exact (split_eq_spec "removable" t ltac:(split; [discriminate|reflexivity]))).
  assert (SE5 : forall t, split_eq ("static_owner=" ++ t) = Some ("static_owner", t)) by (intros t; exact (split_eq_spec "static_owner" t ltac:(split; [discriminate|reflexivity]))).
  rewrite SE1, SE2, SE3, SE4, SE5.
  rewrite I1, A1, B1, R1, S1. cbn [bind]. unfold part_init, get. cbn [dlookup String.eqb]. cbn. rewrite I4.
  assert (L : (i < List.length ol')%nat) by (apply nth_error_Some; congruence).
  destruct (FunctionsProps.C104_factory_index_behaviour _ ol' (Z.of_nat i)) as (_ & _ & C & _). destruct C as (a & C1 & C2); [lia|]. rewrite Nat2Z.id in C2. rewrite C1. cbn [bind].
  assert (a = f) by congruence. subst a. rewrite A2, B2, B3, NF, P1, Nat.eqb_refl. cbn [negb bind]. rewrite map_length, P2, Nat.eqb_refl. cbn [negb].
  assert (MT : map truth (part_free p) = part_free p). { rewrite <- (map_id (part_free p)) at 2. apply map_ext_in. exact P3. } rewrite MT. reflexivity.
Qed.
End Parts.

(** ** C126 *)
Section Clusters.
Context {V F : Type}.
Variable repr : V -> string.
Variable eval : string -> result V.
Variables (vnone : V) (vint : Z -> V) (vstr : string -> V).
Variable as_int : V -> option Z.
Variable is_none : V -> bool.
Variable fclass fmodule : F -> string.
Variable fbase : F -> option F.
Variable fmeta : F -> list (string * V).
Variable ftext : V -> string.
Variable feq : F -> F -> bool.
Variable construct : V -> V -> option F -> list (string * V) -> result F.
Variable safelist : list F -> list F.
Variable show_ints : list Z -> string.
Variable eval_ints : string -> result (option (list Z)).
Variable show_nat : nat -> string.
Variable numbered : string -> list string -> list string.
Notation mc := (@mc V F).
Variable body : list F -> list F -> option (list F) -> string -> list string -> option (list string) -> option (list string) -> list string -> result mc.
Notation writestr := (mc_writestr repr vnone vint vstr fclass fmodule fbase fmeta ftext feq safelist show_ints show_nat).
Notation factory := (mc_factory eval as_int is_none construct eval_ints numbered body).

Lemma section_keeps name l ls a b : is_section name l = false -> split_section name (l :: ls) = Some (a, b) -> exists a', a = l :: a' /\ split_section name ls = Some (a', b).
Proof. intros H. cbn [split_section]. rewrite H. destruct (split_section name ls) as [[a' b']|]; [|discriminate]. intros [= <- <-]. eauto. Qed.
Lemma cut_keeps name l1 l2 r : is_section name l1 = false -> is_section name l2 = false -> exists r' o, cut_section name (l1 :: l2 :: r) = (l1 :: l2 :: r', o).
Proof. intros H1 H2. unfold cut_section. cbn [split_section]. rewrite H1, H2. destruct (split_section name r) as [[a b]|]; eexists _, _; reflexivity. Qed.
(** A line that starts with a letter is not the start of a section. *)
Lemma letter_no_section name c l : Ascii.eqb c "#" = false -> is_section name (String c l) = false.
Proof. intros H. unfold is_section. cbn [after_hashes]. now rewrite H. Qed.

(** The name after [ModelEvaluator=] must be one of the names in the package. *)
Theorem factory_reads_evaluator :
  forall pfs bfs l1 name rest,
    (exists c r, l1 = String c r /\ Ascii.eqb c "#" = false /\ after_prefix "ModelEvaluator=" l1 = None) ->
    ~ In (strip name) package_names ->
    exists e, factory pfs bfs (l1 :: ("ModelEvaluator=" ++ name) :: rest) = Err e.
Proof.
  intros pfs bfs l1 name rest (c & r & -> & HC & HP) NI. set (l2 := "ModelEvaluator=" ++ name).
  assert (S1 : forall n, is_section n (String c r) = false) by (intros; now apply letter_no_section).
  assert (S2 : forall n, is_section n l2 = false) by (intros; unfold l2; change ("ModelEvaluator=" ++ name) with (String "M" ("odelEvaluator=" ++ name)); now apply letter_no_section).
  unfold mc_factory. destruct (split_section "start data" (String c r :: l2 :: rest)) as [[h0 data]|] eqn:SD; [|eexists; reflexivity]. cbn [need bind].
  apply section_keeps in SD as (a1 & -> & SD); [|apply S1]. apply section_keeps in SD as (a2 & -> & SD); [|apply S2].
  destruct (cut_keeps "ModelPeaks" (String c r) l2 a2 (S1 _) (S2 _)) as (r1 & o1 & ->).
  destruct (cut_keeps "BaselineObject" (String c r) l2 r1 (S1 _) (S2 _)) as (r2 & o2 & ->).
  assert (E3 : exists r3 o3, (match pfs with Some _ => (String c r :: l2 :: r2, None) | None => cut_section "PeakFunctions" (String c r :: l2 :: r2) end) = (String c r :: l2 :: r3, o3)).
  { destruct pfs; [eexists _, _; reflexivity|]. apply cut_keeps; auto. }
  destruct E3 as (r3 & o3 & ->).
  assert (E4 : exists r4 o4, (match bfs with Some _ => (String c r :: l2 :: r3, None) | None => cut_section "BaselineFunctions" (String c r :: l2 :: r3) end) = (String c r :: l2 :: r4, o4)).
  { destruct bfs; [eexists _, _; reflexivity|]. apply cut_keeps; auto. }
  destruct E4 as (r4 & o4 & ->).
  destruct (match bfs with Some l => Ok l | None => _ end) as [bl|e]; [|eexists; reflexivity]. cbn [bind].
  destruct (match pfs with Some l => Ok l | None => _ end) as [pl|e]; [|eexists; reflexivity]. cbn [bind].
  destruct (match field "peak_funcs" _ with None => _ | Some t => _ end) as [f1|e]; [|eexists; reflexivity]. cbn [bind].
  destruct (eval_ints (strip f1)) as [oi|e]; [|eexists; reflexivity]. cbn [bind].
  destruct (match oi with None => _ | Some is => _ end) as [fs|e]; [|eexists; reflexivity]. cbn [bind].
  assert (FE : field "ModelEvaluator" (String c r :: l2 :: r4) = Some name).
  { cbn [field]. change ("ModelEvaluator" ++ "=") with "ModelEvaluator=". rewrite HP. reflexivity. }
  rewrite FE. unfold package_attr. destruct (existsb (String.eqb (strip name)) package_names) eqn:EX; [|eexists; reflexivity].
  exfalso. apply NI. apply existsb_exists in EX as (x & Hx & E). apply String.eqb_eq in E. now subst x.
Qed.

Lemma writestr_shape (m : mc) pfs bfs ls : writestr pfs bfs m = Ok ls ->
  exists t rest, ls = (("peak_funcs=" ++ t) :: ("ModelEvaluator=" ++ match mc_eval m with None => "None" | Some n => n end) :: rest).
Proof.
  unfold mc_writestr.
  destruct (match pfs with Some l => Ok l | None => _ end) as [pl|e]; [|discriminate]. cbn [bind].
  destruct (match bfs with Some l => Ok l | None => _ end) as [bl|e]; [|discriminate]. cbn [bind].
  assert (L1 : exists t, match mc_funcs m with None => Ok "peak_funcs=None" | Some fs => do i <- indices feq pl fs; Ok ("peak_funcs=" ++ show_ints i) end = Ok ("peak_funcs=" ++ t) \/ exists e, match mc_funcs m with None => Ok "peak_funcs=None" | Some fs => do i <- indices feq pl fs; Ok ("peak_funcs=" ++ show_ints i) end = Err e).
  { destruct (mc_funcs m) as [fs|]; [|exists "None"; now left]. destruct (indices feq pl fs) as [i|e]; [exists (show_ints i); now left|exists ""; right; eexists; reflexivity]. }
  destruct L1 as (t & [->|[e ->]]); [|discriminate]. cbn [bind].
  repeat match goal with |- context [bind ?x _] => destruct x as [?|?]; [|discriminate]; cbn [bind] end.
  intros [= <-]. eexists _, _. reflexivity.
Qed.
(** ModelCluster.factory(m.writestr()) raises for every cluster whose evaluator is AIC,
    AICc or None, with or without lists of functions for either call. *)
Theorem C126_cluster_text_refuted :
  forall (m : mc) pfs bfs ls,
    mc_eval m = None \/ mc_eval m = Some "AIC" \/ mc_eval m = Some "AICc" ->
    writestr pfs bfs m = Ok ls ->
    forall pfs' bfs', exists e, factory pfs' bfs' ls = Err e.
Proof.
  intros m pfs bfs ls EV W pfs' bfs'.
  destruct (writestr_shape m pfs bfs ls W) as (t & rest & ->). apply factory_reads_evaluator.
  - exists "p"%char, ("eak_funcs=" ++ t). repeat split.
  - intros H. assert (ST : strip (match mc_eval m with None => "None" | Some n => n end) = match mc_eval m with None => "None" | Some n => n end) by (destruct EV as [->|[->| ->]]; reflexivity).
    rewrite ST in H. revert H. destruct EV as [->|[->| ->]]; cbn; intuition discriminate.
Qed.
(** The functions of a cluster without a baseline, or without peak functions, cannot be
    written at all without lists. *)
Theorem C126_writestr_raises_refuted :
  forall m : mc,
    (mc_funcs m = None -> forall bfs, writestr None bfs m = Err TypeError) /\
    (mc_base m = None -> mc_funcs m <> None -> forall l, writestr (Some l) None m = Err AttributeError /\ writestr None None m = Err AttributeError).
Proof.
  intros m. split.
  - intros H bfs. unfold mc_writestr, pf_default. rewrite H. reflexivity.
  - intros H N l. unfold mc_writestr, pf_default. rewrite H. destruct (mc_funcs m); [|contradiction]. split; reflexivity.
Qed.
End Clusters.

(** ** C127 *)
Section Extractions.
Context {V : Type}.
Notation obj := (@obj V).
(** PeakExtraction.read and readstr raise for every text, whatever it is and whatever the
    object holds, and what was in the object is gone. *)
Theorem C127_extraction_text_refuted :
  forall (o : obj) ls,
    (exists e, snd (readstr o ls) = Err e) /\ snd (read o ls) = Err TypeError /\
    (forall k, In k ["x"; "y"; "dy"; "baseline"; "pf"; "initial_peaks"; "extracted"] -> fst (readstr o ls) k = None /\ fst (read o ls) k = None).
Proof.
  intros o ls.
  assert (FR : fst (readstr o ls) = clear o) by (unfold readstr; destruct (split_section _ _) as [[h d]|]; [destruct (split_section "start data" h)|]; reflexivity).
  split; [unfold readstr; destruct (split_section _ _) as [[h d]|]; [destruct (split_section "start data" h)|]; eexists; reflexivity|]. split; [reflexivity|].
  intros k Hk. rewrite FR. unfold read. cbn [fst]. unfold clear. assert (E : existsb (String.eqb k) cleared_names = true).
  { apply existsb_exists. exists k. split; [|apply String.eqb_refl]. destruct Hk as [<-|[<-|[<-|[<-|[<-|[<-|[<-|[]]]]]]]]; cbn; tauto. }
  now rewrite E.
Qed.
(** PeakStability.load raises for every file, after it has replaced the results. *)
Theorem C127_stability_load_refuted :
  forall {R} (s : @stability V R) results ppestr (fresh : obj),
    (exists e, snd (load s results ppestr fresh) = Err e) /\ st_results (fst (load s results ppestr fresh)) = results /\
    st_ppe (fst (load s results ppestr fresh)) "extracted" = None.
Proof.
  intros R s results ppestr fresh. destruct (C127_extraction_text_refuted fresh ppestr) as ((e & E) & _ & K). specialize (K "extracted" ltac:(cbn; tauto)) as [K _]. unfold load.
  destruct (readstr fresh ppestr) as [o r]. cbn [fst snd st_results st_ppe] in *. eauto.
Qed.
End Extractions.

(** ** C128, C129 *)
Section Sequences.
Context {N : Type}.
Variable float : string -> result N.
(** Comment lines, each with its line break. *)
Fixpoint comments (cs : list string) : string :=
  match cs with [] => "" | c :: r => String "#" (c ++ String LF (comments r)) end.
Definition no_lf (s : string) : Prop := all_chars (fun c => negb (Ascii.eqb c LF)) s = true.

Lemma after_first_line b c rest : no_lf c -> b = false -> after_first b (c ++ String LF rest) = after_first true rest.
Proof.
  intros H ->. induction c as [|a c IH]; [reflexivity|]. unfold no_lf in H. cbn [all_chars] in H. apply andb_true_iff in H as [H1 H2]. cbn [append after_first andb]. destruct (Ascii.eqb a LF); [discriminate|]. exact (IH H2).
Qed.
Lemma after_comments cs c r : (forall l, In l cs -> no_lf l) -> Ascii.eqb c "#" = false -> after_first true (comments cs ++ String c r) = Some r.
Proof.
  intros H HC. induction cs as [|l cs IH]; [cbn [comments append after_first]; now rewrite HC|].
  cbn [comments append after_first]. change (Ascii.eqb "#" "#") with true. cbn [negb andb]. rewrite app_assoc_s. change (String LF (comments cs) ++ String c r) with (String LF (comments cs ++ String c r)).
  rewrite after_first_line; [|apply H; now left|reflexivity]. apply IH. intros x Hx. apply H. now right.
Qed.
(** The first character of the first data line has no influence on what is read. *)
Theorem C128_first_character_refuted :
  forall cs c c' rest, (forall l, In l cs -> no_lf l) -> Ascii.eqb c "#" = false -> Ascii.eqb c' "#" = false ->
    readxy float (comments cs ++ String c rest) = readxy float (comments cs ++ String c' rest).
Proof. intros cs c c' rest H H1 H2. unfold readxy. rewrite !after_comments by assumption. reflexivity. Qed.

(** A word of a line. *)
Definition word (s : string) : Prop := s <> "" /\ all_chars (fun c => negb (isblank c)) s = true.
Lemma words_word cur w rest : all_chars (fun c => negb (isblank c)) w = true -> words cur (w ++ rest) = words (cur ++ w) rest.
Proof.
  revert cur. induction w as [|c w IH]; intros cur H; [now rewrite app_nil_s|]. cbn [all_chars] in H. apply andb_true_iff in H as [H1 H2]. cbn [append words]. destruct (isblank c); [discriminate|]. rewrite IH by exact H2. now rewrite app_assoc_s.
Qed.
Lemma words_end w : word w -> words "" w = [w].
Proof.
  intros [N0 H]. rewrite <- (app_nil_s w) at 1. rewrite words_word by exact H. cbn [append words]. destruct w; [contradiction|reflexivity].
Qed.
Lemma words_two a b : word a -> word b -> words "" (a ++ " " ++ b) = [a; b].
Proof.
  intros [NA HA] HB. rewrite words_word by exact HA. change ("" ++ a) with a. cbn [append words]. change (isblank " ") with true. cbn iota. destruct a as [|c a]; [contradiction|]. now rewrite words_end.
Qed.
Lemma word_no_lf w : all_chars (fun c => negb (isblank c)) w = true -> no_lf w.
Proof.
  intros H. unfold no_lf. induction w as [|c w IH]; [reflexivity|]. cbn [all_chars] in *. apply andb_true_iff in H as [H1 H2]. rewrite (IH H2), andb_true_r. destruct (Ascii.eqb_spec c LF); [subst c; discriminate|reflexivity].
Qed.
Lemma split_nl_step cur l rest : no_lf l -> split_nl cur (l ++ String LF rest) = (cur ++ l) :: split_nl "" rest.
Proof.
  revert cur. induction l as [|c l IH]; intros cur H; [cbn [append split_nl]; rewrite app_nil_s; reflexivity|]. unfold no_lf in H. cbn [all_chars] in H. apply andb_true_iff in H as [H1 H2].
  cbn [append split_nl]. destruct (Ascii.eqb c LF); [discriminate|]. rewrite IH by exact H2. now rewrite app_assoc_s.
Qed.
Lemma split_nl_end cur l : no_lf l -> split_nl cur l = [cur ++ l].
Proof.
  revert cur. induction l as [|c l IH]; intros cur H; [cbn [split_nl]; now rewrite app_nil_s|]. unfold no_lf in H. cbn [all_chars] in H. apply andb_true_iff in H as [H1 H2].
  cbn [split_nl]. destruct (Ascii.eqb c LF); [discriminate|]. rewrite IH by exact H2. now rewrite app_assoc_s.
Qed.
Lemma split_nl_join ls : ls <> [] -> (forall l, In l ls -> no_lf l) -> split_nl "" (join newline ls) = ls.
Proof.
  induction ls as [|l r IH]; intros NE H; [contradiction|]. cbn [join]. destruct r as [|l2 r]; [apply split_nl_end, H; now left|].
  unfold newline at 1. change (String LF "" ++ join newline (l2 :: r)) with (String LF (join newline (l2 :: r))). rewrite split_nl_step by (apply H; now left). f_equal. apply IH; [discriminate|]. intros x Hx. apply H. now right.
Qed.
Lemma word_last w : word w -> last_nonblank w.
Proof.
  intros [N0 H]. induction w as [|c w IH]; [contradiction|]. cbn [all_chars] in H. apply andb_true_iff in H as [H1 H2]. destruct w as [|d w]; [cbn; now apply negb_true_iff|]. cbn [last_nonblank]. apply IH; [discriminate|exact H2].
Qed.
(** With any other character in front of the first number, the rows are read exactly. *)
Theorem C129_rows_read_exactly :
  forall cs c (ds : list (string * string)) (xy : string * string -> N * N),
    (forall l, In l cs -> no_lf l) -> Ascii.eqb c "#" = false -> ds <> [] ->
    (forall a b, In (a, b) ds -> word a /\ word b /\ float a = Ok (fst (xy (a, b))) /\ float b = Ok (snd (xy (a, b)))) ->
    readxy float (comments cs ++ String c (join newline (map (fun ab => fst ab ++ " " ++ snd ab) ds) ++ newline)) = Ok (map xy ds).
Proof.
  intros cs c ds xy HC H1 NE HD. unfold readxy. rewrite after_comments by assumption.
  set (ls := map (fun ab => fst ab ++ " " ++ snd ab) ds). assert (NL : ls <> []) by (destruct ds; [contradiction|discriminate]).
  assert (LL : last_nonblank (last ls "")).
  { assert (I : forall l, In l ls -> last_nonblank l). { intros l Hl. apply in_map_iff in Hl as ([a b] & <- & Hi). apply last_nonblank_app, last_nonblank_app, word_last. apply (HD a b Hi). }
    apply I. clear - NL. destruct ls as [|l r]; [contradiction|]. clear NL. revert l. induction r as [|l2 r IH]; intros l; [now left|]. right. apply IH. }
  rewrite strip_break.
  2:{ split; [|now apply last_nonblank_join]. unfold ls. destruct ds as [|[a b] ds]; [contradiction|]. cbn [map fst snd join]. destruct (HD a b) as ([NA HA] & _); [now left|].
      destruct a as [|d a]; [contradiction|]. cbn [all_chars] in HA. apply andb_true_iff in HA as [HA _]. destruct (map _ ds); cbn; now apply negb_true_iff. }
  rewrite split_nl_join.
  2:{ exact NL. } 2:{ intros l Hl. apply in_map_iff in Hl as ([a b] & <- & Hi). destruct (HD a b Hi) as ([_ HA] & [_ HB] & _). cbn [fst snd]. unfold no_lf. rewrite !all_app. rewrite (word_no_lf a HA), (word_no_lf b HB). reflexivity. }
  clear - HD. unfold ls. induction ds as [|[a b] ds IH]; [reflexivity|]. cbn [map rows fst snd]. destruct (HD a b) as (HA & HB & FA & FB); [now left|]. rewrite words_two by assumption. rewrite FA, FB.
  rewrite IH by (intros; apply HD; now right). cbn [bind]. now destruct (xy (a, b)).
Qed.
End Sequences.

(** ** C125 *)
Lemma entries_some ls (kts : list (string * string)) : Forall2 (fun l kt => key_line l = Some kt) ls kts -> entries ls = ([], map (fun kt => (fst kt, [snd kt])) kts).
Proof.
  induction 1 as [|l [k t] ls kts H _ IH]; [reflexivity|]. cbn [entries map]. rewrite IH, H. cbn [fst snd]. destruct (map _ kts); reflexivity.
Qed.
Fixpoint has_eq (s : string) : bool := match s with "" => false | String c r => (Ascii.eqb c "=" || has_eq r)%bool end.
Lemma keyword_no_eq k : keyword k -> has_eq k = false.
Proof.
  intros [_ H]. induction k as [|c k IH]; [reflexivity|]. cbn [all_chars] in H. apply andb_true_iff in H as [H1 H2]. apply andb_true_iff in H1 as [_ H1]. cbn [has_eq]. rewrite (IH H2). apply negb_true_iff in H1. now rewrite H1.
Qed.
(** The first word has an equals sign after its first character: a key is found. *)
Lemma first_word_key c t : isblank c = false -> no_eq_in_first_word t = false -> exists k v, key_line (String c t) = Some (String c k, v).
Proof.
  revert c. induction t as [|d t IH]; intros c HC H; [discriminate|]. cbn [no_eq_in_first_word] in H. destruct (isblank d) eqn:BD; [discriminate|].
  cbn [key_line]. rewrite HC, BD. destruct (Ascii.eqb d "=") eqn:ED.
  - destruct (match key_line t with Some (k, v) => _ | None => _ end) as [[k v]|]; eexists _, _; reflexivity.
  - cbn [negb andb] in H. destruct (IH d BD H) as (k & v & E). cbn [key_line] in E. rewrite BD in E. rewrite E. eexists _, _. reflexivity.
Qed.
Lemma key_line_longer k t : keyword k -> no_eq_in_first_word t = false -> exists k2 t2, key_line (k ++ "=" ++ t) = Some (k2, t2) /\ has_eq k2 = true.
Proof.
  intros [NE K] T. induction k as [|c k IH]; [contradiction|]. cbn [all_chars] in K. apply andb_true_iff in K as [K1 K2]. apply andb_true_iff in K1 as [K1 _]. apply negb_true_iff in K1.
  change (String c k ++ "=" ++ t) with (String c (k ++ "=" ++ t)). destruct k as [|d k].
  - change ("" ++ "=" ++ t) with (String "=" t). destruct (first_word_key "="%char t eq_refl T) as (k2 & v & E). cbn [key_line] in *. rewrite K1. rewrite E. eexists _, _. split; [reflexivity|]. cbn [has_eq]. now rewrite orb_true_r.
  - destruct IH as (k2 & t2 & E & H); [discriminate|exact K2|]. cbn [key_line]. cbn [key_line] in E. rewrite K1, E. eexists _, _. split; [reflexivity|]. cbn [has_eq]. rewrite H. apply orb_true_r.
Qed.
Section Misread.
Context {V F : Type}.
Variable repr : V -> string.
Variable eval : string -> result V.
Variables (vnone : V) (vint : Z -> V) (vstr : string -> V).
Variable as_int : V -> option Z.
Variable is_none : V -> bool.
Variable fclass fmodule : F -> string.
Variable fbase : F -> option F.
Variable fmeta : F -> list (string * V).
Variable ftext : V -> string.
Variable feq : F -> F -> bool.
Variable construct : V -> V -> option F -> list (string * V) -> result F.
(** A function with a keyword argument whose text has an equals sign in its first word
    (such as ['a=b']) cannot be read, even if eval(repr(v)) is v. *)
Theorem C125_equals_sign_refuted :
  forall f k v baselist baselist',
    fmeta f = [(k, v)] -> keyword k -> one_line (ftext v) -> no_eq_in_first_word (ftext v) = false ->
    fbase f = None ->
    text_of eval (repr vnone) vnone -> is_none vnone = true ->
    text_of eval (repr (vstr (fclass f))) (vstr (fclass f)) -> text_of eval (repr (vstr (fmodule f))) (vstr (fmodule f)) ->
    (* the class takes [k] only *)
    (forall c m b d, map fst d <> [k] -> exists e, construct c m b d = Err e) ->
    exists s e, fun_writestr repr vnone vint vstr fclass fmodule fbase fmeta ftext feq baselist f = Ok s /\
      fun_factory eval as_int is_none construct s baselist' = Err e.
Proof.
  intros f k v bl bl' EM KW OL NE NB (N1 & N2 & N3) N4 (C1 & C2 & C3) (M1 & M2 & M3) CO. unfold fun_writestr, fun_lines. rewrite NB, EM. cbn [bind map fst snd].
  set (ls := ["function=" ++ repr (vstr (fclass f)); "module=" ++ repr (vstr (fmodule f)); "base=" ++ repr vnone; k ++ "=" ++ ftext v]).
  enough (exists e, fun_factory eval as_int is_none construct (join newline ls ++ newline) bl' = Err e) as [e E] by (exists (join newline ls ++ newline), e; auto).
  unfold fun_factory. rewrite splitlines_joined.
  2:{ discriminate. }
  2:{ intros l [<-|[<-|[<-|[<-|[]]]]]; rewrite one_line_app; (split; [reflexivity || now apply keyword_one_line|]); auto. }
  destruct (key_line_longer k (ftext v) KW NE) as (k2 & t2 & E & H).
  assert (KK : forall a t, keyword a -> no_eq_in_first_word t = true -> key_line (a ++ "=" ++ t) = Some (a, t)) by (intros; now apply key_line_spec).
  rewrite (entries_some ls [("function", repr (vstr (fclass f))); ("module", repr (vstr (fmodule f))); ("base", repr vnone); (k2, t2)]).
  2:{ constructor; [exact (KK "function" _ ltac:(split; [discriminate|reflexivity]) C3)|]. constructor; [exact (KK "module" _ ltac:(split; [discriminate|reflexivity]) M3)|].
      constructor; [exact (KK "base" _ ltac:(split; [discriminate|reflexivity]) N3)|]. constructor; [exact E|constructor]. }
  cbn [snd map fst evals join]. rewrite C1, M1, N1. destruct (eval t2) as [v2|e]; [|eexists; reflexivity]. cbn [bind].
  assert (D1 : String.eqb "function" k2 = false) by (destruct (String.eqb_spec "function" k2) as [<-|]; [discriminate H|reflexivity]).
  assert (D2 : String.eqb "module" k2 = false) by (destruct (String.eqb_spec "module" k2) as [<-|]; [discriminate H|reflexivity]).
  assert (D3 : String.eqb "base" k2 = false) by (destruct (String.eqb_spec "base" k2) as [<-|]; [discriminate H|reflexivity]).
  assert (G1 : get "function" [("function", vstr (fclass f)); ("module", vstr (fmodule f)); ("base", vnone); (k2, v2)] = Ok (vstr (fclass f))) by (unfold get; cbn [dlookup]; rewrite D1; reflexivity).
  rewrite G1. cbn [bind].
  assert (X1 : ddelete "function" [("function", vstr (fclass f)); ("module", vstr (fmodule f)); ("base", vnone); (k2, v2)] = [("module", vstr (fmodule f)); ("base", vnone); (k2, v2)]) by (cbn [ddelete]; rewrite D1; reflexivity).
  rewrite X1.
  assert (G2 : get "module" [("module", vstr (fmodule f)); ("base", vnone); (k2, v2)] = Ok (vstr (fmodule f))) by (unfold get; cbn [dlookup]; rewrite D2; reflexivity).
  rewrite G2. cbn [bind].
  assert (X2 : ddelete "module" [("module", vstr (fmodule f)); ("base", vnone); (k2, v2)] = [("base", vnone); (k2, v2)]) by (cbn [ddelete]; rewrite D2; reflexivity).
  rewrite X2.
  assert (G3 : get "base" [("base", vnone); (k2, v2)] = Ok vnone) by (unfold get; cbn [dlookup]; rewrite D3; reflexivity).
  rewrite G3. cbn [bind]. rewrite N4. assert (X3 : ddelete "base" [("base", vnone); (k2, v2)] = [(k2, v2)]) by (cbn [ddelete]; rewrite D3; reflexivity). rewrite X3.
  apply CO. cbn. intros [= EQ]. subst k2. rewrite (keyword_no_eq k KW) in H. discriminate.
Qed.
End Misread.

(** ** Non-vacuity: a small part of Python *)
Inductive val := VNone | VInt (z : Z) | VStr (s : string) | VList (l : list val) | VBool (b : bool).
Fixpoint vrepr (v : val) : string :=
  match v with
  | VNone => "None" | VInt z => show_int z | VStr s => "'" ++ s ++ "'" | VList l => "[" ++ join ", " (map vrepr l) ++ "]"
  | VBool true => "True" | VBool false => "False"
  end.
(** the text before the last character *)
Fixpoint before_last (c : ascii) (s : string) : option string :=
  match s with "" => None | String d "" => if Ascii.eqb c d then Some "" else None | String d r => option_map (String d) (before_last c r) end.
Fixpoint commas (s : string) : string := match s with "" => "" | String c r => String (if Ascii.eqb c "," then " " else c) (commas r) end.
Definition atom (s : string) : result val :=
  match eval_int s with Ok z => Ok (VInt z) | Err _ => if String.eqb s "True" then Ok (VBool true) else if String.eqb s "False" then Ok (VBool false) else Err GenericException end.
Fixpoint atoms (l : list string) : result (list val) := match l with [] => Ok [] | s :: r => do v <- atom s; do t <- atoms r; Ok (v :: t) end.
Definition veval (s : string) : result val :=
  match atom s with
  | Ok v => Ok v
  | Err _ =>
    if String.eqb s "None" then Ok VNone else
    match s with
    | String "'" r => match before_last "'" r with Some t => Ok (VStr t) | None => Err GenericException end
    | String "[" r => match before_last "]" r with Some t => do l <- atoms (words "" (commas t)); Ok (VList l) | None => Err GenericException end
    | _ => Err GenericException
    end
  end.
Definition digit_or_sign (c : ascii) : bool := existsb (Ascii.eqb c) ["0"; "1"; "2"; "3"; "4"; "5"; "6"; "7"; "8"; "9"; "-"]%char.
Lemma uint_digits d : all_chars digit_or_sign (NilEmpty.string_of_uint d) = true.
Proof. induction d; [reflexivity|..]; cbn [NilEmpty.string_of_uint all_chars]; rewrite IHd; reflexivity. Qed.
Lemma int_digits z : all_chars digit_or_sign (show_int z) = true /\ show_int z <> "".
Proof.
  unfold show_int. assert (U : forall d, all_chars digit_or_sign (NilZero.string_of_uint d) = true /\ NilZero.string_of_uint d <> "").
  { intros d. unfold NilZero.string_of_uint. destruct d; (split; [apply uint_digits || reflexivity|discriminate]). }
  destruct (Z.to_int z) as [d|d]; cbn [NilZero.string_of_int]; [apply U|]. split; [|discriminate]. cbn [all_chars]. destruct (U d) as [-> _]. reflexivity.
Qed.
Lemma digits_text s : all_chars digit_or_sign s = true -> s <> "" -> one_line s /\ no_eq_in_first_word s = true /\ last_nonblank s.
Proof.
  intros H NE. assert (D : forall c, digit_or_sign c = true -> isbreak c = false /\ isblank c = false /\ Ascii.eqb c "=" = false).
  { intros c Hc. apply existsb_exists in Hc as (x & Hx & E). apply Ascii.eqb_eq in E. subst x. cbn [In] in Hx. repeat (destruct Hx as [<-|Hx]; [repeat split|]). destruct Hx. }
  induction s as [|c s IH]; [contradiction|]. cbn [all_chars] in H. apply andb_true_iff in H as [H1 H2]. destruct (D c H1) as (D1 & D2 & D3).
  destruct s as [|d s]; [repeat split; unfold one_line; cbn; rewrite ?D1, ?D2, ?D3; reflexivity|]. destruct IH as (I1 & I2 & I3); [exact H2|discriminate|].
  repeat split.
  - unfold one_line in *. cbn [all_chars] in *. rewrite D1. exact I1.
  - change (no_eq_in_first_word (String c (String d s))) with (if isblank c then true else (negb (Ascii.eqb c "=") && no_eq_in_first_word (String d s))%bool). rewrite D2, D3. exact I2.
  - exact I3.
Qed.
Lemma veval_int z : veval (show_int z) = Ok (VInt z).
Proof. unfold veval, atom. now rewrite TracerProps.eval_show. Qed.
Lemma vint_text z : text_of veval (vrepr (VInt z)) (VInt z).
Proof. destruct (int_digits z) as [H N]. destruct (digits_text _ H N) as (A & B & _). split; [apply veval_int|]. now split. Qed.

(** GaussianOverR and its TerminationRipples, objects 0 and 1; read objects are 2 and 3. *)
Definition xclass (f : nat) : string := match f with 0%nat => "GaussianOverR" | _ => "TerminationRipples" end.
Definition xmodule (f : nat) : string := match f with 0%nat => "diffpy.srmise.peaks.gaussianoverr" | _ => "diffpy.srmise.peaks.terminationripples" end.
Definition xbase (f : nat) : option nat := match f with 0%nat => None | _ => Some 0%nat end.
Definition xmeta (f : nat) : list (string * val) := match f with 0%nat => [("maxwidth", VInt 1)] | _ => [("qmax", VInt 20); ("extension", VInt 4); ("supersample", VInt 5)] end.
Definition xclone (f : nat) (b : option nat) : nat := match b with None => 2%nat | Some g => (g + 1)%nat end.
Definition as_vint (v : val) : option Z := match v with VInt z => Some z | _ => None end.
Definition is_vnone (v : val) : bool := match v with VNone => true | _ => false end.
Definition xconstruct (c m : val) (b : option nat) (d : list (string * val)) : result nat := Ok (xclone 0 b).
Example C123_nonvacuous :
  (forall z, text_of veval (vrepr (VInt z)) (VInt z) /\ is_vnone (VInt z) = false /\ as_vint (VInt z) = Some z) /\
  text_of veval (vrepr VNone) VNone /\
  (forall f, In f [0%nat; 1%nat] -> describable vrepr veval VStr xclass xmodule xmeta vrepr f) /\
  (forall f b, In f [0%nat; 1%nat] -> (b = None <-> xbase f = None) -> xconstruct (VStr (xclass f)) (VStr (xmodule f)) b (xmeta f) = Ok (xclone f b)) /\
  (do ss <- write_funs vrepr VNone VInt VStr xclass xmodule xbase xmeta vrepr Nat.eqb [0%nat; 1%nat] [0%nat; 1%nat]; read_funs veval as_vint is_vnone xconstruct ss []) = Ok [2%nat; 3%nat].
Proof.
  split; [intros z; split; [apply vint_text|split; reflexivity]|]. split; [repeat split|]. split; [|split; [reflexivity|vm_compute; reflexivity]].
  intros f [<-|[<-|[]]]; repeat split; try (intros [?|[?|[?|[]]]]; discriminate); cbn [xmeta map fst].
  - repeat constructor. intros [].
  - intros ->. destruct H as [H|[]]. discriminate.
  - destruct H as [[= <- <-]|[]]. reflexivity.
  - destruct H as [[= <- <-]|[]]. cbn. intuition discriminate.
  - destruct H as [[= <- <-]|[]]. vm_compute. reflexivity.
  - destruct H as [[= <- <-]|[]]. vm_compute. reflexivity.
  - destruct H as [[= <- <-]|[]]. vm_compute. reflexivity.
  - repeat constructor; cbn; intuition discriminate.
  - intros ->. destruct H as [H|[H|[H|[]]]]; discriminate.
  - destruct H as [[= <- <-]|[[= <- <-]|[[= <- <-]|[]]]]; reflexivity.
  - destruct H as [[= <- <-]|[[= <- <-]|[[= <- <-]|[]]]]; cbn; intuition discriminate.
  - destruct H as [[= <- <-]|[[= <- <-]|[[= <- <-]|[]]]]; vm_compute; reflexivity.
  - destruct H as [[= <- <-]|[[= <- <-]|[[= <- <-]|[]]]]; vm_compute; reflexivity.
  - destruct H as [[= <- <-]|[[= <- <-]|[[= <- <-]|[]]]]; vm_compute; reflexivity.
Qed.
(** A function whose metadata text has an equals sign. *)
Example C125_nonvacuous :
  keyword "note" /\ one_line (vrepr (VStr "a=b")) /\ no_eq_in_first_word (vrepr (VStr "a=b")) = false /\ veval (vrepr (VStr "a=b")) = Ok (VStr "a=b") /\
  (do s <- fun_writestr vrepr VNone VInt VStr xclass xmodule (fun _ => None) (fun _ => [("note", VStr "a=b")]) vrepr Nat.eqb [] 0%nat;
   fun_factory veval as_vint is_vnone (fun _ _ _ d => match d with [("note", _)] => Ok 2%nat | _ => Err TypeError end) s []) = Err DataFormatError.
Proof. split; [split; [discriminate|reflexivity]|]. repeat split. Qed.
(** A peak of GaussianOverR. *)
Definition as_vlist (v : val) : option (list val) := match v with VList l => Some l | _ => None end.
Definition xpart : @part val nat := mkPart 0%nat [VInt 3; VInt (-1); VInt 20] [VBool true; VBool false; VBool true] (VBool true) (VBool false).
Example C124_nonvacuous :
  proper (fun _ => 3%nat) (fun v => v) xpart /\ findex Nat.eqb (part_owner xpart) [0%nat] = Some 0%nat /\
  list_round_trips vrepr veval is_vnone as_vlist VList (part_pars xpart) /\ list_round_trips vrepr veval is_vnone as_vlist VList (part_free xpart) /\
  round_trips vrepr veval (part_removable xpart) /\ round_trips vrepr veval (part_static xpart) /\
  (forall z, round_trips vrepr veval (VInt z) /\ as_vint (VInt z) = Some z) /\
  (do s <- part_writestr vrepr VInt Nat.eqb [0%nat] xpart;
   part_factory veval VInt as_vint is_vnone (fun _ => 3%nat) as_vlist (fun v => v) (VBool true) (VBool false) s [5%nat]) =
     Ok (mkPart 5%nat [VInt 3; VInt (-1); VInt 20] [VBool true; VBool false; VBool true] (VBool true) (VBool false)).
Proof.
  split; [repeat split|]. split; [reflexivity|].
  assert (L : forall l, veval (list_text vrepr l) = Ok (VList l) -> (forall v, In v l -> one_line (vrepr v)) -> list_round_trips vrepr veval is_vnone as_vlist VList l) by (intros l H1 H2; repeat split; assumption).
  split; [apply L; [vm_compute; reflexivity|intros v [<-|[<-|[<-|[]]]]; reflexivity]|]. split; [apply L; [vm_compute; reflexivity|intros v [<-|[<-|[<-|[]]]]; reflexivity]|].
  split; [repeat split|]. split; [repeat split|]. split; [|vm_compute; reflexivity].
  intros z. split; [|reflexivity]. destruct (int_digits z) as [H N]. destruct (digits_text _ H N) as (A & _ & B). split; [apply veval_int|]. now split.
Qed.
(** A cluster with one peak and a baseline is written; its text cannot be read. *)
Definition xmc : @mc val nat := mkMc (Some [0%nat]) (Some "AICc") "slice(0, 2, None)" (Some (mkPart 5%nat [VInt 1] [VBool true] (VBool false) (VBool false))) [xpart] ["1 2 3"; "2 3 4"].
Example C126_nonvacuous :
  mc_writestr vrepr VNone VInt VStr xclass xmodule (fun _ => None) xmeta vrepr Nat.eqb (fun l => nodup Nat.eq_dec l) (fun l => vrepr (VList (map VInt l))) (fun n => show_int (Z.of_nat n)) None None xmc =
  Ok ["peak_funcs=[0]"; "ModelEvaluator=AICc"; "slice=slice(0, 2, None)"; "## BaselineFunctions"; "# BaselineFunction 0"; "function='TerminationRipples'"; "module='diffpy.srmise.peaks.terminationripples'"; "base=None";
      "qmax=20"; "extension=4"; "supersample=5"; ""; "## PeakFunctions"; "# PeakFunction 0"; "function='GaussianOverR'"; "module='diffpy.srmise.peaks.gaussianoverr'"; "base=None"; "maxwidth=1"; "";
      "# BaselineObject"; "owner=0"; "pars=[1]"; "free=[True]"; "removable=False"; "static_owner=False"; ""; "## ModelPeaks"; "# ModelPeak"; "owner=0"; "pars=[3, -1, 20]"; "free=[True, False, True]"; "removable=True"; "static_owner=False"; "";
      "### start data"; "#L r y dy"; "1 2 3"; "2 3 4"].
Proof. vm_compute. reflexivity. Qed.
Example C127_nonvacuous :
  fst (readstr (fun k => if String.eqb k "x" then Some (VInt 1) else None) ["### start data"; "#L r y"; "1 2"; "### Results"]) "x" = None /\
  snd (readstr (fun k : string => @None val) ["### start data"; "#L r y"; "1 2"; "### Results"]) = Err GenericException /\
  snd (readstr (fun k : string => @None val) ["1 2"]) = Err UnboundLocalError.
Proof. repeat split. Qed.
(** "10 5" is read as 0, 5; with a blank in front as 10, 5. *)
Definition int_of (s : string) : result Z := eval_int s.
Example C128_nonvacuous :
  readxy int_of ("10 5" ++ newline ++ "11 6" ++ newline) = Ok [(0, 5); (11, 6)] /\
  readxy int_of (comments [" x y"] ++ "10 5" ++ newline ++ "11 6" ++ newline) = Ok [(0, 5); (11, 6)] /\
  readxy int_of (comments [" x y"] ++ " 10 5" ++ newline ++ "11 6" ++ newline) = Ok [(10, 5); (11, 6)] /\
  readxy int_of ("1 5" ++ newline ++ "11 6" ++ newline) = Err DataFormatError.
Proof. repeat split; vm_compute; reflexivity. Qed.
Example C129_nonvacuous :
  no_lf " x y" /\ word "10" /\ word "5" /\ int_of "10" = Ok 10 /\ int_of "5" = Ok 5.
Proof. repeat split; discriminate. Qed.

(** ** C109 *)
(** With the text of models as it is, no written trace can be read. *)
Theorem C109_written_traces_never_read_refuted :
  forall {V F CL T : Type} (repr : V -> string) (eval : string -> result V) (vnone : V) (vint : Z -> V) vstr as_int is_none (fclass fmodule : F -> string) fbase fmeta ftext feq (construct : V -> V -> option F -> list (string * V) -> result F) safelist show_ints eval_ints show_nat numbered body
    (lines : @mc V F -> list string) (show_clusters : CL -> string) (eval_clusters : string -> result CL) (s : tracer T) (t : @ttrace (@mc V F) CL),
    (* the model's text, as written by maketrace's cluster *)
    mc_writestr repr vnone vint vstr fclass fmodule fbase fmeta ftext feq safelist show_ints show_nat None None (x_mc t) = Ok (lines (x_mc t)) ->
    mc_eval (x_mc t) = None \/ mc_eval (x_mc t) = Some "AIC" \/ mc_eval (x_mc t) = Some "AICc" ->
    exists e, Tracer.readstr (mc_factory eval as_int is_none construct eval_ints numbered body None None) eval_clusters s (Tracer.writestr lines show_clusters t) = Err e.
Proof.
  intros V F CL T repr eval vnone vint vstr as_int is_none fclass fmodule fbase fmeta ftext feq construct safelist show_ints eval_ints show_nat numbered body lines show_clusters eval_clusters s t W EV.
  unfold Tracer.readstr, Tracer.writestr. cbn [app].
  set (lc := append "counter=" _). set (lr := append "recursion=" _). set (ll := append "clusters=" _).
  assert (S1 : split_section "ModelCluster" ("### Trace" :: lc :: lr :: ll :: "### ModelCluster" :: lines (x_mc t)) = Some (["### Trace"; lc; lr; ll], lines (x_mc t))) by reflexivity.
  rewrite S1.
  assert (K : skip_comments (lines (x_mc t)) = lines (x_mc t)).
  { destruct (writestr_shape _ _ _ _ _ _ _ _ _ _ _ _ _ (x_mc t) _ _ _ W) as (u & rest & ->). reflexivity. }
  rewrite K. destruct (C126_cluster_text_refuted repr eval vnone vint vstr as_int is_none fclass fmodule fbase fmeta ftext feq construct safelist show_ints eval_ints show_nat numbered body (x_mc t) None None _ EV W None None) as (e & ->).
  exists e. reflexivity.
Qed.

Print Assumptions C122_function_survives_text.
Print Assumptions C123_function_list_survives_text.
Print Assumptions C124_part_survives_text.
Print Assumptions C125_equals_sign_refuted.
Print Assumptions C126_cluster_text_refuted.
Print Assumptions C126_writestr_raises_refuted.
Print Assumptions C127_extraction_text_refuted.
Print Assumptions C127_stability_load_refuted.
Print Assumptions C128_first_character_refuted.
Print Assumptions C129_rows_read_exactly.
Print Assumptions C109_written_traces_never_read_refuted.

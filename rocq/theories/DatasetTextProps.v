(** Properties of the text of a data set: writeStr and readStr (C186-C190). *)
From Coq Require Import Reals String Ascii Lra.
From Verif Require Import Prelude Evaluators Dataset DatasetProps DatasetText DatasetTextProofs DatasetTextLines DatasetTextHeader.
Open Scope list_scope.

(** ** Known words are found whatever their case *)
Lemma one_i_hit {A} a b prev s c (k : @cont A) : lower b = lower a -> run (one_i a) prev (b :: s) c k = k (Some b) s c.
Proof. intros H. unfold one_i. cbn [run]. rewrite H, Ascii.eqb_refl. reflexivity. Qed.
Lemma one_i_miss {A} a b prev s c (k : @cont A) : Ascii.eqb (lower a) (lower b) = false -> run (one_i a) prev (b :: s) c k = None.
Proof. intros H. unfold one_i. change (run (Chr ?p) prev (b :: s) c k) with (if p b then k (Some b) s c else None). cbv beta. now rewrite H. Qed.
Lemma lit_i_run {A} w : forall u prev s c (k : @cont A), map lower u = map lower w -> run (lit_i w) prev (u ++ s) c k = k (after prev u) s c.
Proof.
  induction w as [|a w IH]; intros u prev s c k L; (destruct u as [|b u]; try discriminate); [reflexivity|]. cbn [map] in L. injection L as L0 L. cbn [lit_i app]. rewrite run_seq, one_i_hit by exact L0. rewrite IH by exact L. now rewrite after_cons.
Qed.
Lemma alt_some {A} a b prev s c (k : @cont A) : run a prev s c k <> None -> run (Alt a b) prev s c k <> None.
Proof. intros H. cbn [run]. destruct (run a prev s c k); [discriminate|contradiction]. Qed.
Lemma alt_none_right {A} a b prev s c (k : @cont A) : run (Alt a b) prev s c k = None -> run b prev s c k = None.
Proof. cbn [run]. destruct (run a prev s c k); [discriminate|auto]. Qed.

(** ** Metadata *)
Definition name (k : chars) : Prop := k <> [] /\ forallb is_word k = true.
Lemma pair_hit key t pos prev rest : name key -> numeral t -> line_start prev ->
  search pair_re pos prev (key ++ "="%char :: t ++ newline :: rest) = Some (pos, newline :: rest, [(2%nat, t); (1%nat, key)]).
Proof.
  intros (NE & W) N P. apply search_hit. unfold pair_re. rewrite run_seq. change (run Bnd ?p ?s ?c ?k) with (if xorb (word_at p) (word_at (hd_error s)) then k p s c else None).
  assert (B : xorb (word_at prev) (word_at (hd_error (key ++ "="%char :: t ++ newline :: rest))) = true).
  { destruct key as [|a key]; [contradiction|]. cbn in W. apply andb_true_iff in W as (Wa & _). cbn [app hd_error word_at]. rewrite Wa. destruct P as [ -> | -> ]; reflexivity. }
  rewrite B. cbv beta. rewrite run_seq. change (run (Grp ?n ?r) ?p ?s ?c ?k) with (run r p s c (fun p' s' c' => k p' s' ((n, firstn (length s - length s') s) :: c'))).
  apply plus_chr; [exact NE|exact W|reflexivity|].
  replace (length (key ++ "="%char :: t ++ newline :: rest) - length ("="%char :: t ++ newline :: rest))%nat with (length key) by (rewrite app_length; lia).
  rewrite firstn_app, Nat.sub_diag, firstn_O, app_nil_r, firstn_all. cbv beta.
  rewrite run_seq. unfold one at 1. rewrite star_zero by reflexivity. rewrite run_seq, one_hit. apply (value_run _ 2%nat t); [exact N|reflexivity].
Qed.
Lemma pair_newline pos s : search pair_re pos None (newline :: s) = search pair_re (S pos) (Some newline) s.
Proof. reflexivity. Qed.
Section Text.
Variable parse : string -> option fl.
Variables fix2 gen shown : fl -> chars.
(** the text of [v] is a decimal number that float() reads as [r] *)
Definition prints (f : fl -> chars) (v r : fl) : Prop := numeral (f v) /\ parse (str (f v)) = Some r.
Definition meta_line (p : string * fl) : chars := txt (fst p) ++ txt "=" ++ shown (snd p).

Lemma dict_set_new d k v : ~ In k (map fst d) -> dict_set d k v = d ++ [(k, v)].
Proof.
  induction d as [|(k', v') d IH]; intros N; [reflexivity|]. cbn [dict_set]. destruct (String.eqb_spec k k') as [->|NE]; [exfalso; apply N; now left|].
  cbn [app]. f_equal. apply IH. intros I. apply N. now right.
Qed.
Lemma str_txt s : str (txt s) = s. Proof. apply string_of_list_ascii_of_string. Qed.
Lemma pairs_lines m : forall fuel d nl, (length m < fuel)%nat -> nl = [] \/ nl = [newline] -> (forall p, In p m -> name (txt (fst p)) /\ prints shown (snd p) (snd p)) ->
  NoDup (map fst (d ++ m)) -> pairs parse fuel (nl ++ join_lines (map meta_line m ++ start_lines)) d = Ok (d ++ m).
Proof.
  induction m as [|(k, v) m IH]; intros fuel d nl F HN HM ND; (destruct fuel as [|fuel]; [cbn in F; lia|]).
  - cbn [pairs map app]. assert (E : search pair_re 0 None (nl ++ join_lines start_lines) = None) by (destruct HN as [ -> | -> ]; vm_compute; reflexivity). rewrite E. now rewrite app_nil_r.
  - destruct (HM (k, v) (or_introl eq_refl)) as (Nk & Nv & Pv). cbn [fst snd] in *. cbn [pairs map app]. rewrite join_cons. unfold meta_line at 1. cbn [fst snd].
    set (rest := join_lines (map meta_line m ++ start_lines)).
    assert (E : exists p, search pair_re 0 None (nl ++ ((txt k ++ txt "=" ++ shown v) ++ [newline]) ++ rest) = Some (p, newline :: rest, [(2%nat, shown v); (1%nat, txt k)])).
    { rewrite <- !app_assoc. destruct HN as [ -> | -> ]; cbn [app]; [exists 0%nat; apply pair_hit; auto; now left|]. rewrite pair_newline. exists 1%nat. apply pair_hit; auto. now right. }
    destruct E as (p & ->). cbn [group find fst snd Nat.eqb]. rewrite Pv, str_txt. rewrite map_app in ND. cbn [map] in ND.
    assert (NI : ~ In k (map fst d)) by (intros I; apply NoDup_remove_2 in ND; apply ND, in_or_app; now left).
    rewrite dict_set_new by exact NI. change (newline :: rest) with ([newline] ++ rest). unfold rest. rewrite IH.
    + now rewrite <- app_assoc.
    + cbn [length] in F. lia.
    + now right.
    + intros p0 I. apply HM. now right.
    + rewrite <- app_assoc. rewrite map_app. exact ND.
Qed.

(** ** The data lines *)
Definition row (a b c d : fl) : chars := gen a ++ txt " " ++ gen b ++ txt " " ++ gen c ++ txt " " ++ gen d.
Fixpoint rows (r g dr dg : list fl) : list (fl * fl * fl * fl) :=
  match r, g, dr, dg with a :: r', b :: g', c :: dr', d :: dg' => (a, b, c, d) :: rows r' g' dr' dg' | _, _, _, _ => [] end.
Lemma data_lines_rows r : forall g dr dg, length g = length r -> length dr = length r -> length dg = length r ->
  data_lines gen r g dr dg = Ok (map (fun '(a, b, c, d) => row a b c d) (rows r g dr dg)).
Proof.
  induction r as [|a r IH]; intros g dr dg L1 L2 L3; [reflexivity|]. destruct g as [|b g], dr as [|c dr], dg as [|d dg]; try discriminate.
  cbn [data_lines rows map]. rewrite IH by (cbn in *; lia). reflexivity.
Qed.
Lemma rows_length r : forall g dr dg, length g = length r -> length dr = length r -> length dg = length r -> length (rows r g dr dg) = length r.
Proof. induction r as [|a r IH]; intros g dr dg L1 L2 L3; [reflexivity|]. destruct g, dr, dg; try discriminate. cbn in *. rewrite IH; lia. Qed.
Lemma rows_nth r : forall g dr dg i a b c d, nth_error (rows r g dr dg) i = Some (a, b, c, d) -> nth_error r i = Some a /\ nth_error g i = Some b /\ nth_error dr i = Some c /\ nth_error dg i = Some d.
Proof.
  induction r as [|a0 r IH]; intros g dr dg i a b c d E; [destruct i; discriminate|]. destruct g as [|b0 g], dr as [|c0 dr], dg as [|d0 dg]; try (destruct i; discriminate).
  destruct i as [|i]; cbn in *; [injection E as -> -> -> ->; auto|now apply IH].
Qed.
Lemma split_words_one t : forall cur s, ~ (exists a, In a t /\ space a = true) -> split_words cur (t ++ s) = split_words (rev t ++ cur) s.
Proof.
  induction t as [|a t IH]; intros cur s N; [reflexivity|]. cbn [app split_words]. destruct (space a) eqn:SA; [exfalso; apply N; exists a; split; [now left|exact SA]|].
  rewrite IH by (intros (b & I & H); apply N; exists b; split; [now right|exact H]). cbn [rev]. now rewrite <- app_assoc.
Qed.
Lemma numeral_nospace t : numeral t -> ~ (exists a, In a t /\ space a = true).
Proof.
  intros N (a & I & H). apply (numeral_chars t N) in I as [D|I].
  - destruct (digit_facts a D) as (_ & _ & _ & _ & _ & _ & _ & _ & F & _). congruence.
  - cbn [In] in I. repeat (destruct I as [<-|I]; [discriminate|]). destruct I.
Qed.
Lemma split_words_numeral t s : numeral t -> split_words [] (t ++ " "%char :: s) = t :: split_words [] s.
Proof.
  intros N. rewrite split_words_one by (now apply numeral_nospace). cbn [split_words]. rewrite app_nil_r. change (space " ") with true. cbv iota.
  destruct (numeral_head t N) as (a & t' & -> & _). destruct (rev (a :: t')) as [|z l] eqn:E; [apply (f_equal (@length ascii)) in E; rewrite rev_length in E; discriminate|]. rewrite <- E, rev_involutive. reflexivity.
Qed.
Lemma split_words_last t : numeral t -> split_words [] t = [t].
Proof.
  intros N. rewrite <- (app_nil_r t) at 1. rewrite split_words_one by (now apply numeral_nospace). cbn [split_words]. rewrite app_nil_r.
  destruct (numeral_head t N) as (a & t' & -> & _). destruct (rev (a :: t')) as [|z l] eqn:E; [apply (f_equal (@length ascii)) in E; rewrite rev_length in E; discriminate|]. rewrite <- E, rev_involutive. reflexivity.
Qed.
Definition words (l : chars) : list string := map str (split_words [] l).
Lemma row_words a b c d : numeral (gen a) -> numeral (gen b) -> numeral (gen c) -> numeral (gen d) -> words (row a b c d) = [str (gen a); str (gen b); str (gen c); str (gen d)].
Proof. intros Na Nb Nc Nd. unfold words, row. cbn [txt list_ascii_of_string app]. rewrite !split_words_numeral, split_words_last by assumption. reflexivity. Qed.
Lemma row_nonl a b c d : numeral (gen a) -> numeral (gen b) -> numeral (gen c) -> numeral (gen d) -> no_newline (row a b c d).
Proof.
  intros Na Nb Nc Nd I. unfold row in I. repeat (apply in_app_or in I; destruct I as [I|I]; [try (eapply numeral_nonl; [|exact I]; assumption); cbn in I; destruct I as [I|[]]; discriminate|]). eapply numeral_nonl; [|exact I]. exact Nd.
Qed.
Lemma split_lines_cur l : forall cur s, no_newline l -> split_lines cur (l ++ s) = split_lines (rev l ++ cur) s.
Proof.
  induction l as [|a l IH]; intros cur s N; [reflexivity|]. cbn [app split_lines]. destruct (Ascii.eqb_spec a newline) as [->|_]; [exfalso; apply N; now left|].
  rewrite IH by (intros I; apply N; now right). cbn [rev]. now rewrite <- app_assoc.
Qed.
Lemma split_lines_join ls l : Forall no_newline ls -> no_newline l -> split_lines [] (join_lines ls ++ l) = ls ++ [l].
Proof.
  intros F N. induction ls as [|x ls IH].
  - cbn [join_lines map concat app]. rewrite <- (app_nil_r l) at 1. rewrite split_lines_cur by exact N. cbn [split_lines]. now rewrite app_nil_r, rev_involutive.
  - inversion F as [|? ? Nx F']; subst. rewrite join_cons, <- !app_assoc. rewrite split_lines_cur by exact Nx. cbn [app split_lines]. rewrite Ascii.eqb_refl, app_nil_r, rev_involutive. f_equal. now apply IH.
Qed.
Definition starts_solid (l : chars) : Prop := match l with a :: _ => space a = false | [] => False end.
Lemma drop_solid l s : starts_solid l -> drop_space (l ++ s) = l ++ s.
Proof. destruct l as [|a l]; [contradiction|]. cbn. now intros ->. Qed.
Lemma rev_solid l z : space z = false -> starts_solid (rev (l ++ [z])).
Proof. intros H. rewrite rev_app_distr. cbn. exact H. Qed.
Lemma strip_join ls l z : starts_solid (hd (l ++ [z]) ls) -> space z = false -> strip (join_lines (ls ++ [l ++ [z]])) = join_lines ls ++ (l ++ [z]).
Proof.
  intros HS HZ. unfold strip. rewrite join_app. cbn [join_lines map concat]. rewrite app_nil_r.
  assert (D : drop_space (join_lines ls ++ (l ++ [z]) ++ [newline]) = join_lines ls ++ (l ++ [z]) ++ [newline]).
  { destruct ls as [|x ls]; cbn [hd] in HS; [exact (drop_solid _ [newline] HS)|]. rewrite join_cons, <- !app_assoc. now apply drop_solid. }
  change (concat (map (fun x => x ++ [newline]) ls)) with (join_lines ls). rewrite D. rewrite !rev_app_distr. cbn [rev app drop_space]. change (space newline) with true. cbv iota. rewrite HZ.
  change (z :: rev l ++ rev (join_lines ls)) with ((z :: rev l) ++ rev (join_lines ls)). rewrite rev_app_distr, rev_involutive. cbn [rev]. now rewrite rev_involutive.
Qed.
Lemma body_rows (rs : list (fl * fl * fl * fl)) : rs <> [] -> (forall a b c d, In (a, b, c, d) rs -> numeral (gen a) /\ numeral (gen b) /\ numeral (gen c) /\ numeral (gen d)) ->
  map words (split_lines [] (strip (join_lines (map (fun '(a, b, c, d) => row a b c d) rs)))) = map (fun '(a, b, c, d) => [str (gen a); str (gen b); str (gen c); str (gen d)]) rs.
Proof.
  intros NE H. destruct (exists_last NE) as (rs' & (((a, b), c), d) & ->). rewrite !map_app. cbn [map].
  destruct (H a b c d) as (Na & Nb & Nc & Nd); [apply in_or_app; right; now left|].
  assert (Hd : exists l z, row a b c d = l ++ [z] /\ space z = false).
  { destruct (numeral_last (gen d) None Nd) as (z & E & D). destruct (digit_facts z D) as (_ & _ & _ & _ & _ & _ & _ & _ & SZ & _).
    unfold after in E. destruct (rev (gen d)) as [|y l] eqn:ER; [discriminate|]. injection E as ->. apply (f_equal (@rev ascii)) in ER. rewrite rev_involutive in ER. cbn [rev] in ER.
    exists (gen a ++ txt " " ++ gen b ++ txt " " ++ gen c ++ txt " " ++ rev l), z. split; [|exact SZ]. unfold row. rewrite ER. now rewrite <- !app_assoc. }
  destruct Hd as (l & z & E & SZ). rewrite E. set (ls := map (fun '(a, b, c, d) => row a b c d) rs').
  assert (NL : Forall no_newline ls). { apply Forall_forall. intros x I. apply in_map_iff in I as ((((a', b'), c'), d') & <- & I). destruct (H a' b' c' d') as (? & ? & ? & ?); [apply in_or_app; now left|]. now apply row_nonl. }
  rewrite strip_join; [|..].
  - rewrite split_lines_join; [|exact NL|rewrite <- E; now apply row_nonl]. rewrite map_app. cbn [map]. f_equal; [|rewrite <- E, row_words by assumption; reflexivity].
    unfold ls. rewrite map_map. apply map_ext_in. intros (((a', b'), c'), d') I. destruct (H a' b' c' d') as (? & ? & ? & ?); [apply in_or_app; now left|]. now apply row_words.
  - assert (S0 : forall a b c d, numeral (gen a) -> starts_solid (row a b c d)). { intros a0 b0 c0 d0 N0. destruct (numeral_head _ N0) as (x & t & EQ & SX & _). unfold row. rewrite EQ. exact SX. }
    unfold ls; clear NL ls; destruct rs' as [|(((a', b'), c'), d') rs']; cbn [map hd]; [rewrite <- E; now apply S0|]. apply S0. apply (H a' b' c' d'). now left.
  - exact SZ.
Qed.

(** ** The whole text *)
Definition plain (l : chars) : Prop := no_newline l /\ ~ In "="%char l.
Definition names_xray (l : chars) : Prop := mentions l "xray" \/ mentions l "x-ray" \/ mentions l "pdfgetx".
Variables (time user : chars) (v : view) (g6 : fl -> fl) (q : fl) (seen : string).
Hypothesis Time : plain time.
Hypothesis User : plain user.
Hypothesis Type_ : (v_stype v = "X"%string /\ seen = "X"%string) \/ (v_stype v = "N"%string /\ ~ names_xray time /\ ~ names_xray user /\ seen = "N"%string) \/
  (v_stype v = "N"%string /\ (names_xray time \/ names_xray user) /\ seen = "X"%string).
Hypothesis Qmax : if is_zero (v_qmax v) then parse "0" = Some q else prints fix2 (v_qmax v) q.
Hypothesis Qdamp : prints gen (v_qdamp v) (g6 (v_qdamp v)).
Hypothesis Qbroad : prints gen (v_qbroad v) (g6 (v_qbroad v)).
Hypothesis Dscale : prints gen (v_dscale v) (g6 (v_dscale v)).
Hypothesis Meta : forall p, In p (v_meta v) -> name (txt (fst p)) /\ prints shown (snd p) (snd p).
Hypothesis Keys : NoDup (map fst (v_meta v)).

Definition stype_line : chars := if String.eqb (v_stype v) "X" then txt "stype=X  x-ray scattering" else txt "stype=N  neutron scattering".
Definition qmax_line : chars := if is_zero (v_qmax v) then txt "qmax=0   correction not applied" else txt "qmax=" ++ fix2 (v_qmax v).
Lemma header_form : header_lines fix2 gen time user v =
  [txt "History written: " ++ time; txt "produced by " ++ user; txt "##### PDFgui"; stype_line; qmax_line;
   txt "qdamp=" ++ gen (v_qdamp v); txt "qbroad=" ++ gen (v_qbroad v); txt "dscale=" ++ gen (v_dscale v)].
Proof. unfold header_lines, stype_line, qmax_line. destruct Type_ as [(E & _)|[(E & _)|(E & _)]]; rewrite E; reflexivity. Qed.
Lemma app_nonl a b : no_newline a -> no_newline b -> no_newline (a ++ b).
Proof. intros A B I. apply in_app_or in I as [I|I]; auto. Qed.
Lemma app_noeq a b : ~ In "="%char a -> ~ In "="%char b -> ~ In "="%char (a ++ b).
Proof. intros A B I. apply in_app_or in I as [I|I]; auto. Qed.
Lemma header_nonl l : In l (header_lines fix2 gen time user v) -> no_newline l /\ (l = txt "##### PDFgui" \/ unhashed l).
Proof.
  rewrite header_form. intros I. cbn [In] in I. destruct I as [<-|[<-|[<-|[<-|[<-|[<-|[<-|[<-|[]]]]]]]]].
  - split; [apply app_nonl; [now apply known_nonl|apply Time]|right; reflexivity].
  - split; [apply app_nonl; [now apply known_nonl|apply User]|right; reflexivity].
  - split; [now apply known_nonl|now left].
  - unfold stype_line. destruct (String.eqb _ _); (split; [now apply known_nonl|right; reflexivity]).
  - unfold qmax_line. destruct (is_zero _); [split; [now apply known_nonl|right; reflexivity]|]. split; [apply app_nonl; [now apply known_nonl|apply numeral_nonl, Qmax]|right; reflexivity].
  - split; [apply app_nonl; [now apply known_nonl|apply numeral_nonl, Qdamp]|right; reflexivity].
  - split; [apply app_nonl; [now apply known_nonl|apply numeral_nonl, Qbroad]|right; reflexivity].
  - split; [apply app_nonl; [now apply known_nonl|apply numeral_nonl, Dscale]|right; reflexivity].
Qed.
Lemma name_facts k : name k -> no_newline k /\ forall s, unhashed (k ++ s).
Proof.
  intros (NE & W). split; [intros I; rewrite forallb_forall in W; apply W in I; discriminate|]. destruct k as [|a k]; [contradiction|]. intros s. cbn in W. apply andb_true_iff in W as (Wa & _).
  change (Ascii.eqb "#" a = false). destruct (Ascii.eqb_spec "#" a) as [<-|]; [discriminate|reflexivity].
Qed.
Lemma meta_nonl p : In p (v_meta v) -> no_newline (meta_line p) /\ unhashed (meta_line p).
Proof.
  intros I. destruct (Meta p I) as (Nk & Nv & _). destruct (name_facts _ Nk) as (F1 & F2). unfold meta_line. split; [|apply F2].
  apply app_nonl; [exact F1|]. apply app_nonl; [now apply known_nonl|now apply numeral_nonl].
Qed.
Lemma meta_form : meta_lines shown v = match v_meta v with [] => [] | _ => txt "# metadata" :: map meta_line (v_meta v) end.
Proof. reflexivity. Qed.
Lemma list_case {A} (l : list A) : l = [] \/ exists a r, l = a :: r.
Proof. destruct l; eauto. Qed.
Lemma starts_dull : Forall (dull start_re) (header_lines fix2 gen time user v ++ meta_lines shown v).
Proof.
  apply Forall_app. split.
  - apply Forall_forall. intros l I. destruct (header_nonl l I) as (N & [->|U]); [exact start_pdfgui|now apply start_dull].
  - rewrite meta_form. destruct (list_case (v_meta v)) as [E|(p & m & E)]; rewrite E at 1; [constructor|]. constructor; [exact start_metadata|].
    apply Forall_forall. intros l I. apply in_map_iff in I as (p' & <- & I). destruct (meta_nonl p' I). now apply start_dull.
Qed.
(** the part searched for keys *)
Definition seen_header : chars := join_lines (header_lines fix2 gen time user v ++ match v_meta v with [] => start_lines | _ => [] end).
Definition seen_metadata : chars := match v_meta v with [] => [] | _ => join_lines (map meta_line (v_meta v) ++ start_lines) end.
Lemma metadata_found :
  match search metadata_re 0 None (join_lines (header_lines fix2 gen time user v ++ meta_lines shown v ++ start_lines)) with
  | Some (p, rest, _) => (firstn p (join_lines (header_lines fix2 gen time user v ++ meta_lines shown v ++ start_lines)), rest)
  | None => (join_lines (header_lines fix2 gen time user v ++ meta_lines shown v ++ start_lines), [])
  end = (seen_header, seen_metadata).
Proof.
  assert (DH : Forall (dull metadata_re) (header_lines fix2 gen time user v)).
  { apply Forall_forall. intros l I. destruct (header_nonl l I) as (N & [->|U]); [exact metadata_pdfgui|now apply metadata_dull]. }
  unfold seen_header, seen_metadata. rewrite meta_form. destruct (list_case (v_meta v)) as [E|(p & m & E)].
  - rewrite !E. cbn [app]. rewrite search_lines_none; [reflexivity| |intros A c k; reflexivity|intros A c k; reflexivity].
    apply Forall_app. split; [exact DH|]. apply Forall_forall. intros l I. now apply metadata_start.
  - replace (match v_meta v with [] => [] | _ :: _ => txt "# metadata" :: map meta_line (v_meta v) end) with (txt "# metadata" :: map meta_line (v_meta v)) by (now rewrite E).
    replace (match v_meta v with [] => start_lines | _ :: _ => [] end) with (@nil chars) by (now rewrite E).
    replace (match v_meta v with [] => [] | _ :: _ => join_lines (map meta_line (v_meta v) ++ start_lines) end) with (join_lines (map meta_line (v_meta v) ++ start_lines)) by (now rewrite E).
    rewrite !join_app. cbn [join_lines map concat]. change (concat (map (fun x => x ++ [newline]) ?l)) with (join_lines l). rewrite <- !app_assoc.
    rewrite search_lines; [|now left|exact DH]. cbn [app]. rewrite metadata_hit by (now apply (dull_lines metadata_re _ None []); [left|]).
    rewrite app_nil_r. f_equal. 2: (rewrite E; reflexivity). cbn [Nat.add]. rewrite firstn_app, Nat.sub_diag, firstn_O, app_nil_r, firstn_all. reflexivity.
Qed.

(** ** The values *)
Definition tail_lines : list chars := match v_meta v with [] => start_lines | _ => [] end.
Lemma seen_form : seen_header = join_lines
  ([txt "History written: " ++ time; txt "produced by " ++ user; txt "##### PDFgui"; stype_line; qmax_line;
   txt "qdamp=" ++ gen (v_qdamp v); txt "qbroad=" ++ gen (v_qbroad v); txt "dscale=" ++ gen (v_dscale v)] ++ tail_lines).
Proof. unfold seen_header. now rewrite header_form. Qed.
Lemma known_noeq s : existsb (Ascii.eqb "=") (txt s) = false -> ~ In "="%char (txt s).
Proof. intros H I. assert (existsb (Ascii.eqb "=") (txt s) = true) by (apply existsb_exists; exists "="%char; split; [exact I|reflexivity]). congruence. Qed.
Section Key.
Variable r : re.
Hypothesis K : is_key r.
Lemma k_history : dull r (txt "History written: " ++ time). Proof. apply key_noeq; [exact K|]. apply app_noeq; [now apply known_noeq|apply Time]. Qed.
Lemma k_user : dull r (txt "produced by " ++ user). Proof. apply key_noeq; [exact K|]. apply app_noeq; [now apply known_noeq|apply User]. Qed.
Lemma k_pdfgui : dull r (txt "##### PDFgui"). Proof. apply key_noeq; [exact K|]. now apply known_noeq. Qed.
Lemma k_stype : dull r stype_line. Proof. unfold stype_line. destruct (String.eqb _ _); [now apply stypeX_dull|now apply stypeN_dull]. Qed.
Lemma k_qmax : r <> qmax_re -> dull r qmax_line.
Proof. intros D. unfold qmax_line. destruct (is_zero (v_qmax v)); [now apply noqmax_other|]. apply qmax_other; [exact K|exact D|apply Qmax]. Qed.
Lemma k_qdamp : r <> qdamp_re -> dull r (txt "qdamp=" ++ gen (v_qdamp v)). Proof. intros D. apply qdamp_other; [exact K|exact D|apply Qdamp]. Qed.
Lemma k_qbroad : r <> qbroad_re -> dull r (txt "qbroad=" ++ gen (v_qbroad v)). Proof. intros D. apply qbroad_other; [exact K|exact D|apply Qbroad]. Qed.
Lemma k_dscale : r <> dscale_re -> dull r (txt "dscale=" ++ gen (v_dscale v)). Proof. intros D. apply dscale_other; [exact K|exact D|apply Dscale]. Qed.
Lemma k_tail : Forall (dull r) tail_lines.
Proof. unfold tail_lines. destruct (list_case (v_meta v)) as [E|(p & m & E)]; rewrite E; [|constructor]. apply Forall_forall. intros l I. apply key_noeq; [exact K|]. apply start_noeq. now right. Qed.
Lemma k_absent : r <> qmax_re -> r <> qdamp_re -> r <> qbroad_re -> r <> dscale_re -> field parse r seen_header = Ok None.
Proof.
  intros D1 D2 D3 D4. rewrite seen_form. apply field_none; [|apply key_never_end; [exact K|now left]|apply key_never_end; [exact K|now right]].
  apply Forall_app. split; [|exact k_tail]. repeat constructor; auto using k_history, k_user, k_pdfgui, k_stype, k_qmax, k_qdamp, k_qbroad, k_dscale.
Qed.
End Key.
Ltac iskey := unfold is_key; cbn [In]; tauto.
Ltac differ := let E := fresh in intros E; apply (f_equal (fun r => search r 0 None (txt "qmax=1 qdamp=1 qbroad=1 spdiameter=1 dscale=1 T=1 x=1"))) in E; vm_compute in E; discriminate.
Notation l1 := (txt "History written: " ++ time).
Notation l2 := (txt "produced by " ++ user).
Notation l3 := (txt "##### PDFgui").
Notation l6 := (txt "qdamp=" ++ gen (v_qdamp v)).
Notation l7 := (txt "qbroad=" ++ gen (v_qbroad v)).
Notation l8 := (txt "dscale=" ++ gen (v_dscale v)).
Lemma f_qmax : field parse qmax_re seen_header = Ok (Some q).
Proof.
  assert (H : hits qmax_re qmax_line (if is_zero (v_qmax v) then ["0"%char] else fix2 (v_qmax v))).
  { unfold qmax_line. pose proof Qmax as Q. destruct (is_zero (v_qmax v)); [apply noqmax_hits|apply qmax_hits, Q]. }
  rewrite seen_form. change (?h ++ tail_lines) with ([l1; l2; l3; stype_line] ++ qmax_line :: [l6; l7; l8] ++ tail_lines).
  rewrite (field_hit parse qmax_re _ qmax_line _ _ ltac:(repeat constructor; [apply k_history|apply k_user|apply k_pdfgui|apply k_stype]; iskey) H).
  unfold value_of. pose proof Qmax as Q. destruct (is_zero (v_qmax v)); [change (str ["0"%char]) with "0"%string|destruct Q as (_ & Q)]; rewrite Q; reflexivity.
Qed.
Lemma f_qdamp : field parse qdamp_re seen_header = Ok (Some (g6 (v_qdamp v))).
Proof.
  rewrite seen_form. change (?h ++ tail_lines) with ([l1; l2; l3; stype_line; qmax_line] ++ l6 :: [l7; l8] ++ tail_lines).
  rewrite (field_hit parse qdamp_re _ l6 (gen (v_qdamp v))); [unfold value_of; destruct Qdamp as (_ & ->); reflexivity| |apply qdamp_hits, Qdamp].
  repeat constructor; [apply k_history|apply k_user|apply k_pdfgui|apply k_stype|apply k_qmax]; first [iskey|differ].
Qed.
Lemma f_qbroad : field parse qbroad_re seen_header = Ok (Some (g6 (v_qbroad v))).
Proof.
  rewrite seen_form. change (?h ++ tail_lines) with ([l1; l2; l3; stype_line; qmax_line; l6] ++ l7 :: [l8] ++ tail_lines).
  rewrite (field_hit parse qbroad_re _ l7 (gen (v_qbroad v))); [unfold value_of; destruct Qbroad as (_ & ->); reflexivity| |apply qbroad_hits, Qbroad].
  repeat constructor; [apply k_history|apply k_user|apply k_pdfgui|apply k_stype|apply k_qmax|apply k_qdamp]; first [iskey|differ].
Qed.
Lemma f_dscale : field parse dscale_re seen_header = Ok (Some (g6 (v_dscale v))).
Proof.
  rewrite seen_form. change (?h ++ tail_lines) with ([l1; l2; l3; stype_line; qmax_line; l6; l7] ++ l8 :: tail_lines).
  rewrite (field_hit parse dscale_re _ l8 (gen (v_dscale v))); [unfold value_of; destruct Dscale as (_ & ->); reflexivity| |apply dscale_hits, Dscale].
  repeat constructor; [apply k_history|apply k_user|apply k_pdfgui|apply k_stype|apply k_qmax|apply k_qdamp|apply k_qbroad]; first [iskey|differ].
Qed.
Lemma f_spdiameter : field parse spdiameter_re seen_header = Ok None.
Proof. apply k_absent; first [iskey|differ]. Qed.
Lemma f_temperature : field parse temperature_re seen_header = Ok None.
Proof. apply k_absent; first [iskey|differ]. Qed.
Lemma f_doping : field parse doping_re seen_header = Ok None.
Proof. apply k_absent; first [iskey|differ]. Qed.
Lemma clean_of l : plain l -> ~ names_xray l -> clean l.
Proof. intros (N & _) X. split; [exact N|]. split; [|split]; intros M; apply X; unfold names_xray; auto. Qed.
Lemma names_found l a b : names_xray l -> search xray_re 0 None (a ++ l ++ b) <> None.
Proof.
  intros X. assert (H : exists x u y, l = x ++ u ++ y /\ (map lower u = txt "xray" \/ map lower u = txt "x-ray" \/ map lower u = txt "pdfgetx")) by (destruct X as [(x & u & y & E & L)|[(x & u & y & E & L)|(x & u & y & E & L)]]; exists x, u, y; auto).
  destruct H as (x & u & y & -> & L). apply (search_some _ _ _ _ (a ++ x) (u ++ y ++ b)); [now rewrite <- !app_assoc|]. intros pos. unfold xray_re.
  destruct L as [L|[L|L]].
  - apply alt_some. destruct u as [|z u]; [discriminate|]. cbn [map txt list_ascii_of_string] in L. injection L as L0 L. cbn [app]. rewrite run_seq, (one_i_hit "x" z) by (now rewrite L0).
    rewrite run_seq. unfold opt. destruct u as [|z2 u]; [discriminate|]. pose proof L as L'. cbn [map] in L'. injection L' as L2 _.
    rewrite alt_right; [change (run Eps ?p ?s ?c ?k) with (k p s c); cbv beta; rewrite lit_i_run by (exact L); discriminate|]. cbn [app]. apply one_i_miss. now rewrite L2.
  - apply alt_some. destruct u as [|z u]; [discriminate|]. cbn [map txt list_ascii_of_string] in L. injection L as L0 L. cbn [app]. rewrite run_seq, (one_i_hit "x" z) by (now rewrite L0).
    rewrite run_seq. unfold opt. apply alt_some. destruct u as [|z2 u]; [discriminate|]. cbn [map] in L. injection L as L2 L. cbn [app]. rewrite one_i_hit by (now rewrite L2). rewrite lit_i_run by (exact L). discriminate.
  - intros E. pose proof (alt_none_right _ _ _ _ _ _ E) as E2. rewrite lit_i_run in E2 by exact L. discriminate.
Qed.
Lemma f_stype : match search xray_re 0 None seen_header with
               | Some _ => Some "X"%string
               | None => match search neutron_re 0 None seen_header with Some _ => Some "N"%string | None => None end
               end = Some seen.
Proof.
  rewrite seen_form. destruct Type_ as [(E & ->)|[(E & X1 & X2 & ->)|(E & X & ->)]].
  - assert (H : search xray_re 0 None (join_lines ([l1; l2; l3; stype_line; qmax_line; l6; l7; l8] ++ tail_lines)) <> None); [|now destruct (search xray_re _ _ _)].
    change (?h ++ tail_lines) with ([l1; l2; l3] ++ [stype_line] ++ [qmax_line; l6; l7; l8] ++ tail_lines). rewrite !(join_app [l1; l2; l3]), (join_app [stype_line]).
    unfold stype_line. rewrite E. cbn [String.eqb Ascii.eqb Bool.eqb].
    apply (search_some _ _ _ _ (join_lines [l1; l2; l3] ++ txt "stype=X  ") (txt "x-ray scattering" ++ [newline] ++ join_lines ([qmax_line; l6; l7; l8] ++ tail_lines))).
    + rewrite <- !app_assoc. f_equal.
    + intros pos. vm_compute. discriminate.
  - assert (H0 : search xray_re 0 None (join_lines ([l1; l2; l3; stype_line; qmax_line; l6; l7; l8] ++ tail_lines)) = None).
    { apply search_lines_none; [|intros A c k; reflexivity|intros A c k; reflexivity]. apply Forall_app. split.
      - repeat constructor.
        + apply xray_history, clean_of; assumption.
        + apply xray_user, clean_of; assumption.
        + apply xray_pdfgui.
        + unfold stype_line. rewrite E. apply xray_neutron.
        + unfold qmax_line. pose proof Qmax as Q. destruct (is_zero _); [apply xray_noqmax|apply xray_qmax, Q].
        + apply xray_qdamp, Qdamp.
        + apply xray_qbroad, Qbroad.
        + apply xray_dscale, Dscale.
      - unfold tail_lines. destruct (list_case (v_meta v)) as [M|(p & m & M)]; rewrite M; [|constructor]. apply Forall_forall, xray_start. }
    rewrite H0.
    assert (H : search neutron_re 0 None (join_lines ([l1; l2; l3; stype_line; qmax_line; l6; l7; l8] ++ tail_lines)) <> None); [|now destruct (search neutron_re _ _ _)].
    change (?h ++ tail_lines) with ([l1; l2; l3] ++ [stype_line] ++ [qmax_line; l6; l7; l8] ++ tail_lines). rewrite !(join_app [l1; l2; l3]), (join_app [stype_line]).
    unfold stype_line. rewrite E. cbn [String.eqb Ascii.eqb Bool.eqb].
    apply (search_some _ _ _ _ (join_lines [l1; l2; l3] ++ txt "stype=N  ") (txt "neutron scattering" ++ [newline] ++ join_lines ([qmax_line; l6; l7; l8] ++ tail_lines))).
    + rewrite <- !app_assoc. f_equal.
    + intros pos. vm_compute. discriminate.
  - assert (H : search xray_re 0 None (join_lines ([l1; l2; l3; stype_line; qmax_line; l6; l7; l8] ++ tail_lines)) <> None); [|now destruct (search xray_re _ _ _)].
    destruct X as [X|X].
    + change (?h ++ tail_lines) with (l1 :: [l2; l3; stype_line; qmax_line; l6; l7; l8] ++ tail_lines). rewrite join_cons, <- !app_assoc. now apply names_found.
    + change (?h ++ tail_lines) with ([l1] ++ l2 :: [l3; stype_line; qmax_line; l6; l7; l8] ++ tail_lines). 
      replace (join_lines ([l1] ++ l2 :: [l3; stype_line; qmax_line; l6; l7; l8] ++ tail_lines)) with ((join_lines [l1] ++ txt "produced by ") ++ user ++ ([newline] ++ join_lines ([l3; stype_line; qmax_line; l6; l7; l8] ++ tail_lines)));
        [now apply names_found|]. rewrite (join_app [l1]), (join_cons l2). now rewrite <- !app_assoc.
Qed.
Lemma parse_written rs lines : (rs <> [] /\ lines = map (fun '(a, b, c, d) => [str (gen a); str (gen b); str (gen c); str (gen d)]) rs \/ rs = [] /\ lines = [[]]) -> (forall a b c d, In (a, b, c, d) rs -> numeral (gen a) /\ numeral (gen b) /\ numeral (gen c) /\ numeral (gen d)) ->
  parse_text parse (join_lines (header_lines fix2 gen time user v ++ meta_lines shown v ++ start_lines ++ map (fun '(a, b, c, d) => row a b c d) rs)) =
  Ok (mkText (mkHeader (Some seen) (Some q) (Some (g6 (v_qdamp v))) (Some (g6 (v_qbroad v))) None (Some (g6 (v_dscale v))) (v_meta v)) lines).
Proof.
  intros NE HR. set (data := map _ rs). unfold parse_text.
  assert (SD : match join_lines data with [] => True | a :: _ => space a = false /\ Ascii.eqb "#" a = false end).
  { destruct rs as [|(((a, b), c), d) rs']; [exact I|]. destruct (HR a b c d (or_introl eq_refl)) as (Na & _). destruct (numeral_head _ Na) as (x & t & EQ & S1 & _ & S2).
    unfold data. cbn [map]. rewrite join_cons. unfold row. rewrite EQ. cbn [app]. auto. }
  assert (ES : search start_re 0 None (join_lines (header_lines fix2 gen time user v ++ meta_lines shown v ++ start_lines ++ data)) =
    Some (length (join_lines (header_lines fix2 gen time user v ++ meta_lines shown v)), join_lines data, [])).
  { rewrite (app_assoc (header_lines fix2 gen time user v)), join_app, search_lines; [|now left|apply starts_dull]. rewrite (join_app start_lines). cbn [Nat.add]. apply start_hit; [|exact SD].
    apply (dull_lines start_re _ None []); [now left|apply starts_dull]. }
  rewrite ES.
  assert (SP : join_lines (header_lines fix2 gen time user v ++ meta_lines shown v ++ start_lines ++ data) = join_lines (header_lines fix2 gen time user v ++ meta_lines shown v ++ start_lines) ++ join_lines data).
  { rewrite <- join_app. now rewrite <- !app_assoc. }
  rewrite SP. replace (length (join_lines (header_lines fix2 gen time user v ++ meta_lines shown v ++ start_lines) ++ join_lines data) - length (join_lines data))%nat
    with (length (join_lines (header_lines fix2 gen time user v ++ meta_lines shown v ++ start_lines))) by (rewrite app_length; lia).
  rewrite firstn_app, Nat.sub_diag, firstn_O, app_nil_r, firstn_all, skipn_app, Nat.sub_diag, skipn_all. cbn [app]. change (skipn 0 (join_lines data)) with (join_lines data).
  assert (EP : pairs parse (S (length seen_metadata)) seen_metadata [] = Ok (v_meta v)).
  { destruct (list_case (v_meta v)) as [E|(p & m & E)]; [unfold seen_metadata; rewrite E; reflexivity|].
    assert (SM : seen_metadata = [] ++ join_lines (map meta_line (v_meta v) ++ start_lines)) by (unfold seen_metadata; now rewrite E). rewrite SM.
    rewrite pairs_lines; [reflexivity| |now left|exact Meta|exact Keys]. apply Nat.lt_succ_r. cbn [app]. rewrite join_app, app_length.
    assert (forall l : list chars, (length l <= length (join_lines l))%nat). { induction l as [|x l IH]; [apply le_n|]. rewrite join_cons, !app_length. cbn [length]. lia. }
    specialize (H (map meta_line (v_meta v))). rewrite map_length in H. lia. }
  pose proof metadata_found as MF.
  destruct (search metadata_re 0 None _) as [[[p rest] c0]|]; pose proof (f_equal fst MF) as E1; pose proof (f_equal snd MF) as E2; cbn [fst snd] in E1, E2; clear MF; rewrite E1;
  [rewrite E2|rewrite <- E2 in EP];
  rewrite ?f_stype, ?f_qmax, ?f_qdamp, ?f_qbroad, ?f_spdiameter, ?f_dscale, ?f_temperature, ?f_doping; cbn [bind]; rewrite ?f_stype, ?EP; cbn [bind]; do 2 f_equal; unfold data; (destruct NE as [(NE & ->)|(-> & ->)]; [apply (body_rows rs NE HR)|reflexivity]).
Qed.
End Text.

(** ** What readStr makes of it *)
Lemma readstr_header parse st i t st' w : readstr parse st i t = (st', Ok tt) -> see st' i = Some w ->
  let h := t_header t in
  v_stype w = def (h_stype h) "X"%string /\ v_qmax w = def (h_qmax h) (Fin 0) /\ v_qdamp w = def (h_qdamp h) (Fin (1 / 1000)) /\ v_qbroad w = def (h_qbroad h) (Fin 0) /\
  v_spdiameter w = h_spdiameter h /\ v_dscale w = def (h_dscale h) (Fin 1) /\ v_meta w = h_meta h /\ v_filename w = None.
Proof.
  unfold readstr. destruct (nth_error (objs st) i) as [d0|] eqn:D; [|discriminate].
  destruct (read_lines parse (mkObs [] [] [] [] true true) (t_lines t)) as [o r] eqn:R. destruct r as [[]|e]; [|discriminate].
  destruct (pyget (o_r (finish o)) 0) as [a|] eqn:PA; [|discriminate]. destruct (pyget (o_r (finish o)) (-1)) as [b|] eqn:PB; [|discriminate].
  intros [= <-]. assert (IL : (i < List.length (objs st))%nat) by (apply nth_error_Some; congruence).
  unfold see, set_obj, alloc. cbn [objs lists dicts]. rewrite upd_same by exact IL. cbn [option_map]. intros [= <-].
  unfold see_ds, get_dict. cbn [dicts v_stype v_qmax v_qdamp v_qbroad v_spdiameter v_dscale v_meta v_filename d_stype d_qmax d_qdamp d_qbroad d_spdiameter d_dscale d_meta d_filename fresh_ds].
  rewrite app_nth2, Nat.sub_diag by lia. cbn [nth]. destruct (h_spdiameter (t_header t)); repeat split; reflexivity.
Qed.
Lemma numeral_finite t : numeral t -> inf_or_nan (str t) = false.
Proof.
  intros (sg & d & fr & ex & -> & Hs & Hd & _). destruct (digits_first d Hd) as (a & d' & -> & Ha & _). cbn [app].
  assert (G : forall s, match_word "nan" (String a s) = None /\ match_word "inf" (String a s) = None).
  { intros s. destruct a as [[] [] [] [] [] [] [] []]; try discriminate Ha; split; reflexivity. }
  assert (DS : drop_sign (str (sg ++ a :: d' ++ fr ++ ex)) = String a (str (d' ++ fr ++ ex))).
  { destruct Hs as [ -> | [ -> | -> ]]; [|reflexivity|reflexivity]. cbn [app]. unfold drop_sign. change (str (a :: ?l)) with (String a (str l)).
    destruct (digit_facts a Ha) as (F1 & F2 & _). rewrite Ascii.eqb_sym, F2. cbn [orb]. rewrite Ascii.eqb_sym, F1. reflexivity. }
  unfold inf_or_nan. rewrite DS. destruct (G (str (d' ++ fr ++ ex))) as (-> & ->). reflexivity.
Qed.
Section Read.
Variable parse : string -> option fl.
Variable gen : fl -> chars.
Variable g6 : fl -> fl.
Definition row_words4 : fl * fl * fl * fl -> list string := fun '(a, b, c, d) => [str (gen a); str (gen b); str (gen c); str (gen d)].
Lemma same_list {A} (l m : list A) : List.length l = List.length m -> (forall k x, nth_error m k = Some x -> nth_error l k = Some x) -> l = m.
Proof.
  revert m. induction l as [|a l IH]; intros [|b m] L H; try discriminate; [reflexivity|]. pose proof (H 0%nat b eq_refl) as H0. cbn in H0. injection H0 as ->. f_equal.
  apply IH; [cbn in L; lia|]. intros k x E. apply (H (S k) x E).
Qed.
Lemma nth_rows r g dr dg : List.length g = List.length r -> List.length dr = List.length r -> List.length dg = List.length r ->
  forall k a, nth_error r k = Some a -> exists b c d, nth_error (rows r g dr dg) k = Some (a, b, c, d) /\ nth_error g k = Some b /\ nth_error dr k = Some c /\ nth_error dg k = Some d.
Proof.
  intros L1 L2 L3 k a E. assert (K : (k < List.length r)%nat) by (apply nth_error_Some; congruence).
  destruct (nth_error (rows r g dr dg) k) as [[[[a' b] c] d]|] eqn:ER; [|apply nth_error_None in ER; rewrite rows_length in ER by assumption; lia].
  destruct (rows_nth _ _ _ _ _ _ _ _ _ ER) as (E1 & E2 & E3 & E4). rewrite E in E1. injection E1 as <-. eauto 8.
Qed.
(** column [c] of the rows *)
Definition pick (c : nat) (x : fl * fl * fl * fl) : fl := let '(p, q, s, t) := x in match c with 0 => p | 1 => q | 2 => s | _ => t end%nat.
Lemma row_pick c x : (c < 4)%nat -> nth_error (row_words4 x) c = Some (str (gen (pick c x))).
Proof. destruct x as [[[p q] s] t]. intros H. do 4 (destruct c as [|c]; [reflexivity|]). lia. Qed.
Lemma column_rows rs c l : (c < 4)%nat -> (forall x, In x rs -> parse (str (gen (pick c x))) = Some (g6 (pick c x))) ->
  column_is parse c (map row_words4 rs) l -> l = map (fun x => g6 (pick c x)) rs.
Proof.
  intros C H (L & U). rewrite map_length in L. apply same_list; [now rewrite map_length|]. intros k x E. rewrite nth_error_map in E. destruct (nth_error rs k) as [y|] eqn:EY; [|discriminate]. injection E as <-.
  destruct (U k (row_words4 y)) as (w & z & EW & EP & EZ); [rewrite nth_error_map, EY; reflexivity|]. rewrite (row_pick c y C) in EW. injection EW as <-. rewrite H in EP by (eapply nth_error_In; eauto). injection EP as <-. exact EZ.
Qed.
Lemma uncertainty_rows rs c l : (c < 4)%nat -> (forall x, In x rs -> numeral (gen (pick c x)) /\ parse (str (gen (pick c x))) = Some (g6 (pick c x))) ->
  uncertainty_spec parse c (map row_words4 rs) l ->
  l = if forallb (fun x => fl_pos (g6 (pick c x))) rs then map (fun x => g6 (pick c x)) rs else repeat (Fin 0) (List.length rs).
Proof.
  intros C H [OK|(E & NO)].
  - assert (CI : column_is parse c (map row_words4 rs) l). { destruct OK as (L & U). split; [exact L|]. intros k ws E. destruct (U k ws E) as (w & x & A1 & A2 & A3 & _). eauto. }
    rewrite (column_rows rs c l C (fun x I => proj2 (H x I)) CI). assert (F : forallb (fun x => fl_pos (g6 (pick c x))) rs = true); [|now rewrite F].
    apply forallb_forall. intros x I. apply In_nth_error in I as (k & EK). destruct OK as (_ & U). destruct (U k (row_words4 x)) as (w & z & EW & EP & _ & _ & PZ); [rewrite nth_error_map, EK; reflexivity|].
    rewrite (row_pick c x C) in EW. injection EW as <-. rewrite (proj2 (H x (nth_error_In _ _ EK))) in EP. injection EP as <-. now apply fl_pos_spec.
  - rewrite map_length in E. destruct (forallb _ rs) eqn:F; [|exact E]. exfalso. apply NO. exists (map (fun x => g6 (pick c x)) rs). split; [now rewrite !map_length|].
    intros k ws EK. rewrite nth_error_map in EK. destruct (nth_error rs k) as [x|] eqn:EX; [|discriminate]. injection EK as <-. pose proof (nth_error_In _ _ EX) as I. destruct (H x I) as (N & P).
    exists (str (gen (pick c x))), (g6 (pick c x)). split; [now apply row_pick|]. split; [exact P|]. split; [rewrite nth_error_map, EX; reflexivity|]. split; [now apply numeral_finite|].
    rewrite forallb_forall in F. now apply fl_pos_spec, F.
Qed.
End Read.
Lemma rows_pick r : forall g dr dg, List.length g = List.length r -> List.length dr = List.length r -> List.length dg = List.length r ->
  map (pick 0) (rows r g dr dg) = r /\ map (pick 1) (rows r g dr dg) = g /\ map (pick 2) (rows r g dr dg) = dr /\ map (pick 3) (rows r g dr dg) = dg.
Proof.
  induction r as [|a r IH]; intros g dr dg L1 L2 L3; destruct g as [|b g], dr as [|c dr], dg as [|d dg]; try discriminate; [repeat split|].
  cbn [rows map pick]. destruct (IH g dr dg) as (-> & -> & -> & ->); [cbn in *; lia..|auto].
Qed.
Lemma rows_in r g dr dg x : In x (rows r g dr dg) -> In (pick 0 x) r /\ In (pick 1 x) g /\ In (pick 2 x) dr /\ In (pick 3 x) dg.
Proof. intros I. apply In_nth_error in I as (k & E). destruct x as [[[a b] c] d]. apply rows_nth in E as (E1 & E2 & E3 & E4). cbn [pick]. repeat split; eapply nth_error_In; eassumption. Qed.

(** ** C186: a data set written with writeStr and read with readStr *)
(** [g6 x]: the number whose text "%g" is that of x (six significant digits); [q]: qmax with
    two decimals.  Metadata are written in full. *)
Record writable (parse : string -> option fl) (fix2 gen shown : fl -> chars) (time user : chars) (g6 : fl -> fl) (q : fl) (v : view) : Prop := {
  w_time : plain time;
  w_user : plain user;
  w_qmax : (v_qmax v = Fin 0 -> parse "0"%string = Some q) /\ (v_qmax v <> Fin 0 -> prints parse fix2 (v_qmax v) q);
  w_numbers : forall x, In x (v_qdamp v :: v_qbroad v :: v_dscale v :: v_robs v ++ v_Gobs v ++ v_drobs v ++ v_dGobs v) -> prints parse gen x (g6 x);
  w_meta : forall p, In p (v_meta v) -> name (txt (fst p)) /\ prints parse shown (snd p) (snd p);
  w_keys : NoDup (map fst (v_meta v));
  w_lengths : List.length (v_Gobs v) = List.length (v_robs v) /\ List.length (v_drobs v) = List.length (v_robs v) /\ List.length (v_dGobs v) = List.length (v_robs v) }.
(** what comes back of an uncertainty column: zeros if one of its values is not positive *)
Definition kept (g6 : fl -> fl) (l : list fl) : list fl := if forallb (fun x => fl_pos (g6 x)) l then map g6 l else map (fun _ => Fin 0) l.
Lemma is_zero_true v : is_zero v = true -> v = Fin 0.
Proof. destruct v as [r| | |]; try discriminate. cbn [is_zero]. destruct (Req_EM_T r 0) as [-> |]; [reflexivity|discriminate]. Qed.
Lemma is_zero_false v : is_zero v = false -> v <> Fin 0.
Proof. intros E ->. cbn [is_zero] in E. destruct (Req_EM_T 0 0); [discriminate|contradiction]. Qed.
Lemma qmax_written parse fix2 gen shown time user g6 q v : writable parse fix2 gen shown time user g6 q v ->
  if is_zero (v_qmax v) then parse "0"%string = Some q else prints parse fix2 (v_qmax v) q.
Proof. intros W. destruct (w_qmax _ _ _ _ _ _ _ _ _ W) as (A & C). destruct (is_zero (v_qmax v)) eqn:E; [apply A, is_zero_true, E|apply C, is_zero_false, E]. Qed.
Lemma round_trip parse fix2 gen shown time user g6 q v seen st i :
    writable parse fix2 gen shown time user g6 q v -> v_robs v <> [] -> (i < List.length (objs st))%nat ->
    ((v_stype v = "X"%string /\ seen = "X"%string) \/ (v_stype v = "N"%string /\ ~ names_xray time /\ ~ names_xray user /\ seen = "N"%string) \/
     (v_stype v = "N"%string /\ (names_xray time \/ names_xray user) /\ seen = "X"%string)) ->
    exists s st' w, writestr fix2 gen shown time user v = Ok s /\ read_text parse st i s = (st', Ok tt) /\ see st' i = Some w /\
      v_stype w = seen /\ v_qmax w = q /\ v_qdamp w = g6 (v_qdamp v) /\ v_qbroad w = g6 (v_qbroad v) /\ v_dscale w = g6 (v_dscale v) /\ v_meta w = v_meta v /\
      v_robs w = map g6 (v_robs v) /\ v_Gobs w = map g6 (v_Gobs v) /\ v_drobs w = kept g6 (v_drobs v) /\ v_dGobs w = kept g6 (v_dGobs v) /\
      v_rmin w = nth_error (v_robs w) 0 /\ v_rmax w = nth_error (v_robs w) (List.length (v_robs w) - 1) /\ v_spdiameter w = None.
Proof.
  intros W PT IL TY. pose proof (qmax_written _ _ _ _ _ _ _ _ _ W) as Q. destruct W as [T U _ NU M K (L1 & L2 & L3)].
  set (rs := rows (v_robs v) (v_Gobs v) (v_drobs v) (v_dGobs v)).
  assert (NR : forall x, In x rs -> forall c, (c < 4)%nat -> prints parse gen (pick c x) (g6 (pick c x))).
  { intros x I c C. apply NU. destruct (rows_in _ _ _ _ _ I) as (I0 & I1 & I2 & I3). do 3 right. rewrite !in_app_iff. do 4 (destruct c as [|c]; [tauto|]). lia. }
  assert (NE : rs <> []). { intros E. apply (f_equal (@List.length _)) in E. unfold rs in E. rewrite rows_length in E by assumption. destruct (v_robs v); [contradiction|discriminate]. }
  pose proof (parse_written parse fix2 gen shown time user v g6 q seen T U TY Q (NU _ (or_introl eq_refl)) (NU _ (or_intror (or_introl eq_refl))) (NU _ (or_intror (or_intror (or_introl eq_refl)))) M K rs _ (or_introl (conj NE eq_refl))) as PW.
  eexists. unfold writestr. rewrite data_lines_rows by assumption. cbn [bind]. fold rs.
  set (t := mkText _ _) in PW. destruct (readstr parse st i t) as [st' r] eqn:RD. exists st'.
  assert (OK : r = Ok tt).
  { assert (H : snd (readstr parse st i t) = r) by (now rewrite RD). rewrite <- H. apply (C55_outcome parse st i t IL).
    - cbn [t t_lines]. intros E. apply map_eq_nil in E. contradiction.
    - intros ws I. cbn [t t_lines] in I. apply in_map_iff in I as ([[[a b] c] d] & <- & I). split; [cbn; lia|]. intros w IW. pose proof (NR _ I) as NX.
      pose proof (NX 0%nat ltac:(lia)) as N0. pose proof (NX 1%nat ltac:(lia)) as N1. pose proof (NX 2%nat ltac:(lia)) as N2. pose proof (NX 3%nat ltac:(lia)) as N3. cbn [pick] in *.
      destruct IW as [<-|[<-|[<-|[<-|[]]]]]; [destruct N0 as (_ & ->)|destruct N1 as (_ & ->)|destruct N2 as (_ & ->)|destruct N3 as (_ & ->)]; discriminate. }
  subst r. destruct (C55_success parse st i t st' RD) as (w & SW & _ & I0 & I1 & I2 & I3 & RMI & RMA & _). exists w.
  destruct (readstr_header parse st i t st' w RD SW) as (H1 & H2 & H3 & H4 & H5 & H6 & H7 & _). cbn [t t_header h_stype h_qmax h_qdamp h_qbroad h_dscale h_meta h_spdiameter def] in H1, H2, H3, H4, H5, H6, H7.
  change (t_lines t) with (map (row_words4 gen) rs) in I0, I1, I2, I3.
  apply (column_rows parse gen g6) in I0; [|lia|intros x I; apply (NR x I); lia]. apply (column_rows parse gen g6) in I1; [|lia|intros x I; apply (NR x I); lia].
  apply (uncertainty_rows parse gen g6) in I2; [|lia|intros x I; apply (NR x I); lia]. apply (uncertainty_rows parse gen g6) in I3; [|lia|intros x I; apply (NR x I); lia].
  destruct (rows_pick (v_robs v) (v_Gobs v) (v_drobs v) (v_dGobs v) L1 L2 L3) as (P0 & P1 & P2 & P3). fold rs in P0, P1, P2, P3.
  split; [reflexivity|]. split; [|split; [exact SW|]].
  { unfold read_text. change (parse_text parse ?s) with (parse_text parse (join_lines (header_lines fix2 gen time user v ++ meta_lines shown v ++ start_lines ++ map (fun '(a, b, c, d) => row gen a b c d) rs))).
    rewrite PW; [exact RD|]. intros a b c d I. pose proof (NR _ I) as NX. split; [apply (NX 0%nat); lia|]. split; [apply (NX 1%nat); lia|]. split; [apply (NX 2%nat); lia|apply (NX 3%nat); lia]. }
  assert (KE : forall c l, map (pick c) rs = l -> (if forallb (fun x => fl_pos (g6 (pick c x))) rs then map (fun x => g6 (pick c x)) rs else repeat (Fin 0) (List.length rs)) = kept g6 l).
  { intros c l <-. unfold kept. rewrite !map_map. assert (F : forall rs', forallb (fun x => fl_pos (g6 (pick c x))) rs' = forallb (fun x => fl_pos (g6 x)) (map (pick c) rs')) by (induction rs' as [|x rs' IH]; cbn; [reflexivity|now rewrite IH]).
    rewrite F. destruct (forallb _ (map _ rs)); [reflexivity|]. clear. induction rs as [|x l IH]; cbn; [reflexivity|now rewrite IH]. }
  rewrite <- P0, <- P1, <- (KE 2%nat _ P2), <- (KE 3%nat _ P3), !map_map. auto 25.
Qed.
Theorem C186_round_trip :
  forall parse fix2 gen shown time user g6 q v st i,
    writable parse fix2 gen shown time user g6 q v -> v_robs v <> [] ->
    v_stype v = "X"%string \/ (v_stype v = "N"%string /\ ~ names_xray time /\ ~ names_xray user) ->
    (i < List.length (objs st))%nat ->
    exists s st' w, writestr fix2 gen shown time user v = Ok s /\ read_text parse st i s = (st', Ok tt) /\ see st' i = Some w /\
      v_stype w = v_stype v /\ v_qmax w = q /\ v_qdamp w = g6 (v_qdamp v) /\ v_qbroad w = g6 (v_qbroad v) /\ v_dscale w = g6 (v_dscale v) /\ v_meta w = v_meta v /\
      v_robs w = map g6 (v_robs v) /\ v_Gobs w = map g6 (v_Gobs v) /\ v_drobs w = kept g6 (v_drobs v) /\ v_dGobs w = kept g6 (v_dGobs v) /\
      v_rmin w = nth_error (v_robs w) 0 /\ v_rmax w = nth_error (v_robs w) (List.length (v_robs w) - 1).
Proof.
  intros parse fix2 gen shown time user g6 q v st i W NE TY IL.
  destruct (round_trip parse fix2 gen shown time user g6 q v (v_stype v) st i W NE IL) as (s & st' & w & A1 & A2 & A3 & A4 & A5 & A6 & A7 & A8 & A9 & B1 & B2 & B3 & B4 & B5 & B6 & _); [|exists s, st', w; auto 20].
  destruct TY as [E|(E & X1 & X2)]; [left|right; left]; auto.
Qed.
(** A data set whose numbers have at most six digits (two decimals for qmax) and whose
    uncertainties are positive comes back as it was. *)
Theorem C186_unchanged :
  forall parse fix2 gen shown time user v st i,
    writable parse fix2 gen shown time user (fun x => x) (v_qmax v) v -> v_robs v <> [] ->
    v_stype v = "X"%string \/ (v_stype v = "N"%string /\ ~ names_xray time /\ ~ names_xray user) ->
    (forall x, In x (v_drobs v ++ v_dGobs v) -> exists r, x = Fin r /\ (0 < r)%R) ->
    (i < List.length (objs st))%nat ->
    exists s st' w, writestr fix2 gen shown time user v = Ok s /\ read_text parse st i s = (st', Ok tt) /\ see st' i = Some w /\
      v_stype w = v_stype v /\ v_qmax w = v_qmax v /\ v_qdamp w = v_qdamp v /\ v_qbroad w = v_qbroad v /\ v_dscale w = v_dscale v /\ v_meta w = v_meta v /\
      v_robs w = v_robs v /\ v_Gobs w = v_Gobs v /\ v_drobs w = v_drobs v /\ v_dGobs w = v_dGobs v.
Proof.
  intros parse fix2 gen shown time user v st i W NE TY PO IL.
  destruct (C186_round_trip parse fix2 gen shown time user (fun x => x) (v_qmax v) v st i W NE TY IL) as (s & st' & w & A1 & A2 & A3 & A4 & A5 & A6 & A7 & A8 & A9 & B1 & B2 & B3 & B4 & _).
  assert (KP : forall l, (forall x, In x l -> In x (v_drobs v ++ v_dGobs v)) -> kept (fun x => x) l = l).
  { intros l H. unfold kept. assert (F : forallb (fun x => fl_pos x) l = true) by (apply forallb_forall; intros x I; apply fl_pos_spec; right; apply PO, H, I). rewrite F. apply map_id. }
  rewrite KP in B3 by (intros; apply in_or_app; now left). rewrite KP in B4 by (intros; apply in_or_app; now right). rewrite map_id in B1, B2. exists s, st', w. auto 20.
Qed.

(** ** C187: what is lost *)
(** "The scattering type comes back": not if the login of the user (or the date) contains
    "xray", "x-ray" or "pdfgetx" in any case: neutron data become X-ray data. *)
Theorem C187_neutron_data_refuted :
  forall parse fix2 gen shown time user g6 q v st i,
    writable parse fix2 gen shown time user g6 q v -> v_robs v <> [] -> v_stype v = "N"%string -> names_xray user -> (i < List.length (objs st))%nat ->
    exists s st' w, writestr fix2 gen shown time user v = Ok s /\ read_text parse st i s = (st', Ok tt) /\ see st' i = Some w /\ v_stype w = "X"%string.
Proof.
  intros parse fix2 gen shown time user g6 q v st i W NE E X IL.
  destruct (round_trip parse fix2 gen shown time user g6 q v "X"%string st i W NE IL) as (s & st' & w & A1 & A2 & A3 & A4 & _); [|exists s, st', w; auto]. right; right. auto.
Qed.
(** "The particle diameter comes back": it is never written. *)
Theorem C187_spdiameter_refuted :
  forall parse fix2 gen shown time user g6 q v st i,
    writable parse fix2 gen shown time user g6 q v -> v_robs v <> [] -> v_stype v = "X"%string -> (i < List.length (objs st))%nat ->
    exists s st' w, writestr fix2 gen shown time user v = Ok s /\ read_text parse st i s = (st', Ok tt) /\ see st' i = Some w /\ v_spdiameter w = None.
Proof.
  intros parse fix2 gen shown time user g6 q v st i W NE E IL.
  destruct (round_trip parse fix2 gen shown time user g6 q v "X"%string st i W NE IL) as (s & st' & w & A1 & A2 & A3 & A4 & A5 & A6 & A7 & A8 & A9 & B1 & B2 & B3 & B4 & B5 & B6 & B7); [left; auto|]. exists s, st', w. auto.
Qed.
(** "Uncertainties come back": one point without uncertainty loses those of all points. *)
Theorem C187_uncertainties_refuted :
  forall parse fix2 gen shown time user g6 q v st i,
    writable parse fix2 gen shown time user g6 q v -> v_robs v <> [] -> v_stype v = "X"%string -> (i < List.length (objs st))%nat ->
    In (Fin 0) (map g6 (v_dGobs v)) ->
    exists s st' w, writestr fix2 gen shown time user v = Ok s /\ read_text parse st i s = (st', Ok tt) /\ see st' i = Some w /\
      v_dGobs w = map (fun _ => Fin 0) (v_dGobs v).
Proof.
  intros parse fix2 gen shown time user g6 q v st i W NE E IL Z.
  destruct (C186_round_trip parse fix2 gen shown time user g6 q v st i W NE (or_introl E) IL) as (s & st' & w & A1 & A2 & A3 & A4 & A5 & A6 & A7 & A8 & A9 & B1 & B2 & B3 & B4 & _).
  exists s, st', w. split; [exact A1|]. split; [exact A2|]. split; [exact A3|]. rewrite B4. unfold kept. destruct (forallb _ _) eqn:F; [exfalso|reflexivity].
  apply in_map_iff in Z as (x & EX & I). rewrite forallb_forall in F. apply F in I. rewrite EX in I. apply fl_pos_spec in I as [I|(r & I & P)]; [discriminate|]. injection I as <-. lra.
Qed.
(** "What was written can be read": not an empty data set. *)
Theorem C187_empty_refuted :
  forall parse fix2 gen shown time user g6 q v st i,
    writable parse fix2 gen shown time user g6 q v -> v_robs v = [] -> v_stype v = "X"%string -> (i < List.length (objs st))%nat ->
    exists s st', writestr fix2 gen shown time user v = Ok s /\ read_text parse st i s = (st', Err DataFormatError).
Proof.
  intros parse fix2 gen shown time user g6 q v st i W E TY IL. pose proof (qmax_written _ _ _ _ _ _ _ _ _ W) as Q. destruct W as [T U _ NU M K (L1 & L2 & L3)].
  pose proof (parse_written parse fix2 gen shown time user v g6 q "X"%string T U (or_introl (conj TY eq_refl)) Q (NU _ (or_introl eq_refl)) (NU _ (or_intror (or_introl eq_refl))) (NU _ (or_intror (or_intror (or_introl eq_refl)))) M K [] _ (or_intror (conj eq_refl eq_refl)) ltac:(intros ? ? ? ? [])) as PW.
  eexists. unfold writestr. rewrite data_lines_rows by assumption. rewrite E. cbn [rows map bind].
  set (t := mkText _ _) in PW. destruct (readstr parse st i t) as [st' r] eqn:RD. exists st'. split; [reflexivity|]. unfold read_text.
  change (parse_text parse ?s) with (parse_text parse (join_lines (header_lines fix2 gen time user v ++ meta_lines shown v ++ start_lines ++ map (fun '(a, b, c, d) => row gen a b c d) []))). rewrite PW, RD. f_equal.
  assert (H : snd (readstr parse st i t) = r) by (now rewrite RD). rewrite <- H. apply (C55_outcome parse st i t IL); [discriminate|]. exists [], 0%nat. split; [now left|]. split; [lia|]. intros w C. discriminate.
Qed.

(** ** C188: values in headers written by hand or by another program *)
(** A line "key = value" gives the value whatever the case of the key and the number of
    spaces, if no earlier line has a "="; the start of the data is the line "##### start data". *)
Definition key_line (kx : chars) (n m : nat) (t : chars) : chars := kx ++ repeat " "%char n ++ "="%char :: repeat " "%char m ++ t.
Lemma key_line_run kre kx n m t : (exists a kx', kx = a :: kx' /\ is_word a = true) -> numeral t ->
  (forall A prev s (k' : @cont A) y, (forall p, k' p s [] = Some y) -> run kre prev (kx ++ s) [] k' = Some y) ->
  hits (key_re kre) (key_line kx n m t) t.
Proof.
  intros (a & kx' & EK & WA) N HK prev pos rest P. exists pos, (newline :: rest), [(1%nat, t)]. split; [|reflexivity]. apply search_hit.
  unfold key_re, key_line. rewrite run_seq. change (run Bnd ?p ?s ?c ?k) with (if xorb (word_at p) (word_at (hd_error s)) then k p s c else None).
  assert (B : xorb (word_at prev) (word_at (hd_error ((kx ++ repeat " "%char n ++ "="%char :: repeat " "%char m ++ t) ++ newline :: rest))) = true).
  { rewrite EK. cbn [app hd_error word_at]. rewrite WA. destruct P as [ -> | -> ]; reflexivity. }
  rewrite B. cbv beta. rewrite run_seq, <- !app_assoc. cbn [app]. rewrite <- !app_assoc. apply HK. intros p.
  assert (SP : forall j, forallb (Ascii.eqb " ") (repeat " "%char j) = true) by (induction j; [reflexivity|cbn; exact IHj]).
  rewrite run_seq. apply (star_chr (Ascii.eqb " ") (repeat " "%char n)); [apply SP|reflexivity|]. rewrite run_seq, one_hit.
  destruct (numeral_head t N) as (b & t' & ET & _ & HS & _). rewrite run_seq. apply (star_chr (Ascii.eqb " ") (repeat " "%char m)); [apply SP|rewrite ET; exact HS|].
  pose proof (value_run _ 1%nat t (after (Some "="%char) (repeat " "%char m)) rest [] (fun _ s' c => Some (pos, s', c)) _ N eq_refl) as VR. rewrite run_seq in VR. unfold one in VR. rewrite star_zero in VR by (rewrite ET; exact HS). exact VR.
Qed.
Lemma same_word w kx : map lower kx = map lower w -> forall A prev s (k' : @cont A) y, (forall p, k' p s [] = Some y) -> run (lit_i w) prev (kx ++ s) [] k' = Some y.
Proof. intros L A prev s k' y H. rewrite lit_i_run by exact L. apply H. Qed.
Lemma lower_word_start w kx : map lower kx = map lower w -> match w with a :: _ => is_word a = true | [] => False end -> exists a kx', kx = a :: kx' /\ is_word a = true.
Proof.
  intros L W. destruct w as [|a w], kx as [|b kx]; try contradiction; try discriminate. exists b, kx. split; [reflexivity|]. cbn in L. injection L as L _. unfold is_word in *. rewrite L.
  replace (lower (lower b)) with (lower b); [exact W|]. destruct b as [[] [] [] [] [] [] [] []]; reflexivity.
Qed.
Lemma qmax_line_hits kx n m t : map lower kx = txt "qmax" -> numeral t -> hits qmax_re (key_line kx n m t) t.
Proof. intros L N. apply key_line_run; [now apply (lower_word_start (txt "qmax"))|exact N|]. now apply (same_word (txt "qmax")). Qed.
Lemma spdiameter_line_hits kx n m t : map lower kx = txt "spdiameter" -> numeral t -> hits spdiameter_re (key_line kx n m t) t.
Proof. intros L N. apply key_line_run; [now apply (lower_word_start (txt "spdiameter"))|exact N|]. now apply (same_word (txt "spdiameter")). Qed.
Lemma dscale_line_hits kx n m t : map lower kx = txt "dscale" -> numeral t -> hits dscale_re (key_line kx n m t) t.
Proof. intros L N. apply key_line_run; [now apply (lower_word_start (txt "dscale"))|exact N|]. now apply (same_word (txt "dscale")). Qed.
(** the second of two keys: the first one fails at the second letter *)
Lemma second_key a b1 w1 b2 w2 kx : Ascii.eqb (lower b1) (lower b2) = false -> map lower kx = map lower (a :: b2 :: w2) ->
  forall A prev s (k' : @cont A) y, (forall p, k' p s [] = Some y) -> run (Alt (lit_i (a :: b1 :: w1)) (lit_i (a :: b2 :: w2))) prev (kx ++ s) [] k' = Some y.
Proof.
  intros NE L A prev s k' y H. rewrite alt_right; [now apply (same_word (a :: b2 :: w2))|]. destruct kx as [|x1 [|x2 kx]]; try discriminate. cbn [map] in L. injection L as L1 L2 _.
  cbn [lit_i app]. rewrite run_seq, one_i_hit by exact L1. rewrite run_seq. apply one_i_miss. now rewrite L2.
Qed.
Lemma first_key w r kx : map lower kx = map lower w ->
  forall A prev s (k' : @cont A) y, (forall p, k' p s [] = Some y) -> run (Alt (lit_i w) r) prev (kx ++ s) [] k' = Some y.
Proof. intros L A prev s k' y H. apply alt_left. now apply (same_word w). Qed.
Lemma qdamp_line_hits kx n m t : map lower kx = txt "qdamp" \/ map lower kx = txt "qsig" -> numeral t -> hits qdamp_re (key_line kx n m t) t.
Proof.
  intros [L|L] N; apply key_line_run; try exact N.
  - now apply (lower_word_start (txt "qdamp")).
  - now apply (first_key (txt "qdamp")).
  - now apply (lower_word_start (txt "qsig")).
  - now apply (second_key "q"%char "d"%char (txt "amp") "s"%char (txt "ig")).
Qed.
Lemma qbroad_line_hits kx n m t : map lower kx = txt "qbroad" \/ map lower kx = txt "qalp" -> numeral t -> hits qbroad_re (key_line kx n m t) t.
Proof.
  intros [L|L] N; apply key_line_run; try exact N.
  - now apply (lower_word_start (txt "qbroad")).
  - now apply (first_key (txt "qbroad")).
  - now apply (lower_word_start (txt "qalp")).
  - now apply (second_key "q"%char "b"%char (txt "road") "a"%char (txt "lp")).
Qed.

(** Text before the data without a metadata part *)
Lemma parse_plain parse ls body t : (forall l, In l ls -> no_newline l /\ unhashed l) -> match body with [] => True | a :: _ => space a = false /\ Ascii.eqb "#" a = false end ->
  parse_text parse (join_lines (ls ++ start_lines) ++ body) = Ok t ->
  let h := join_lines (ls ++ start_lines) in
  field parse qmax_re h = Ok (h_qmax (t_header t)) /\ field parse qdamp_re h = Ok (h_qdamp (t_header t)) /\ field parse qbroad_re h = Ok (h_qbroad (t_header t)) /\
  field parse spdiameter_re h = Ok (h_spdiameter (t_header t)) /\ field parse dscale_re h = Ok (h_dscale (t_header t)) /\
  t_lines t = map words (split_lines [] (strip body)) /\ h_stype (t_header t) = match search xray_re 0 None h with
               | Some _ => Some "X"%string
               | None => match search neutron_re 0 None h with Some _ => Some "N"%string | None => None end end.
Proof.
  intros HL HB. unfold parse_text.
  assert (ES : search start_re 0 None (join_lines (ls ++ start_lines) ++ body) = Some (List.length (join_lines ls), body, [])).
  { rewrite join_app, <- app_assoc, search_lines; [|now left|apply Forall_forall; intros l I; destruct (HL l I); now apply start_dull]. cbn [Nat.add]. apply start_hit; [|exact HB].
    apply (dull_lines start_re _ None []); [now left|]. apply Forall_forall; intros l I; destruct (HL l I); now apply start_dull. }
  rewrite ES. replace (List.length (join_lines (ls ++ start_lines) ++ body) - List.length body)%nat with (List.length (join_lines (ls ++ start_lines))) by (rewrite app_length; lia).
  rewrite firstn_app, Nat.sub_diag, firstn_O, app_nil_r, firstn_all, skipn_app, Nat.sub_diag, skipn_all. cbn [app]. change (skipn 0 body) with body.
  rewrite search_lines_none; [|apply Forall_app; split; [apply Forall_forall; intros l I; destruct (HL l I); now apply metadata_dull|apply Forall_forall, metadata_start]|intros A c k; reflexivity|intros A c k; reflexivity].
  set (h := join_lines (ls ++ start_lines)). intros H.
  destruct (field parse qmax_re h) as [o1|]; [|discriminate]. destruct (field parse qdamp_re h) as [o2|]; [|discriminate]. destruct (field parse qbroad_re h) as [o3|]; [|discriminate].
  destruct (field parse spdiameter_re h) as [o4|]; [|discriminate]. destruct (field parse dscale_re h) as [o5|]; [|discriminate]. cbn [bind] in H.
  destruct (field parse temperature_re h) as [o6|]; [|discriminate]. destruct (field parse doping_re h) as [o7|]; [|discriminate]. cbn [bind] in H.
  destruct (pairs _ _ _ _); [|discriminate]. cbn [bind] in H. injection H as <-. cbn [t_header h_qmax h_qdamp h_qbroad h_spdiameter h_dscale t_lines h_stype]. auto 10.
Qed.
Theorem C188_header_values :
  forall parse pre kx n m t post body r,
    (forall l, In l (pre ++ key_line kx n m t :: post) -> no_newline l /\ unhashed l) ->
    (forall l, In l pre -> ~ In "="%char l) -> numeral t ->
    match body with [] => True | a :: _ => space a = false /\ Ascii.eqb "#" a = false end ->
    parse_text parse (join_lines ((pre ++ key_line kx n m t :: post) ++ [txt "##### start data"; txt "#L r(A) G(r) d_r d_Gr"]) ++ body) = Ok r ->
    (map lower kx = txt "qmax" -> h_qmax (t_header r) = parse (str t)) /\
    (map lower kx = txt "qdamp" \/ map lower kx = txt "qsig" -> h_qdamp (t_header r) = parse (str t)) /\
    (map lower kx = txt "qbroad" \/ map lower kx = txt "qalp" -> h_qbroad (t_header r) = parse (str t)) /\
    (map lower kx = txt "spdiameter" -> h_spdiameter (t_header r) = parse (str t)) /\
    (map lower kx = txt "dscale" -> h_dscale (t_header r) = parse (str t)).
Proof.
  intros parse pre kx n m t post body r HL HP N HB E. destruct (parse_plain parse _ body r HL HB E) as (F1 & F2 & F3 & F4 & F5 & _). rewrite <- app_assoc in *. cbn [app] in *.
  assert (D : forall re, is_key re -> Forall (dull re) pre) by (intros re K; apply Forall_forall; intros l I; now apply key_noeq, HP).
  assert (V : forall o, value_of parse t = Ok o -> o = parse (str t)). { intros o. unfold value_of. destruct (parse (str t)); [now intros [= <-]|discriminate]. }
  assert (G : forall re o, is_key re -> hits re (key_line kx n m t) t -> field parse re (join_lines (pre ++ key_line kx n m t :: post ++ start_lines)) = Ok o -> o = parse (str t)).
  { intros re o K H EF. rewrite (field_hit parse re pre _ t _ (D re K) H) in EF. now apply V. }
  split; [intros L; apply (G qmax_re); [unfold is_key; cbn [In]; tauto|now apply qmax_line_hits|exact F1]|].
  split; [intros L; apply (G qdamp_re); [unfold is_key; cbn [In]; tauto|now apply qdamp_line_hits|exact F2]|].
  split; [intros L; apply (G qbroad_re); [unfold is_key; cbn [In]; tauto|now apply qbroad_line_hits|exact F3]|].
  split; [intros L; apply (G spdiameter_re); [unfold is_key; cbn [In]; tauto|now apply spdiameter_line_hits|exact F4]|].
  intros L; apply (G dscale_re); [unfold is_key; cbn [In]; tauto|now apply dscale_line_hits|exact F5].
Qed.

(** A data line is divided at exactly these characters: tab, newline, vertical tab, form feed,
    return, 28 to 31, and space. *)
Lemma space_iff a : space a = true <-> In (nat_of_ascii a) [9; 10; 11; 12; 13; 28; 29; 30; 31; 32]%nat.
Proof.
  unfold space. generalize (nat_of_ascii a). intros n. cbn [In]. rewrite !Bool.orb_true_iff, !Bool.andb_true_iff, !Nat.leb_le, Nat.eqb_eq. lia.
Qed.
Lemma words_plain w : forall cur t, (forall a, In a w -> space a = false) -> split_words cur (w ++ t) = split_words (rev w ++ cur) t.
Proof.
  induction w as [|a w IH]; intros cur t H; [reflexivity|]. cbn [app split_words]. rewrite (H a) by now left. rewrite IH by (intros b I; apply H; now right).
  cbn [rev]. now rewrite <- app_assoc.
Qed.
Theorem C188_blank_characters :
  forall w1 w2 a, w1 <> [] -> w2 <> [] -> (forall b, In b (w1 ++ w2) -> (32 < nat_of_ascii b)%nat) ->
    split_words [] (w1 ++ a :: w2) =
      if existsb (Nat.eqb (nat_of_ascii a)) [9; 10; 11; 12; 13; 28; 29; 30; 31; 32]%nat then [w1; w2] else [w1 ++ a :: w2].
Proof.
  intros w1 w2 a N1 N2 H.
  assert (P : forall b, In b (w1 ++ w2) -> space b = false).
  { intros b I. apply Bool.not_true_is_false. rewrite space_iff. specialize (H b I). cbn [In]. lia. }
  assert (E2 : split_words [] w2 = [w2]).
  { rewrite <- (app_nil_r w2) at 1. rewrite words_plain by (intros b I; apply P, in_or_app; now right). rewrite app_nil_r. cbn [split_words].
    destruct (rev w2) eqn:R; [|rewrite <- R, rev_involutive; reflexivity]. apply (f_equal (@rev ascii)) in R. rewrite rev_involutive in R. now subst. }
  rewrite words_plain by (intros b I; apply P, in_or_app; now left). rewrite app_nil_r. cbn [split_words].
  destruct (existsb _ _) eqn:X.
  - assert (S : space a = true). { apply space_iff. apply existsb_exists in X as (x & I & ?%Nat.eqb_eq). now subst. }
    rewrite S, E2. destruct (rev w1) eqn:R; [|rewrite <- R, rev_involutive; reflexivity]. apply (f_equal (@rev ascii)) in R. rewrite rev_involutive in R. now subst.
  - assert (S : space a = false).
    { apply Bool.not_true_is_false. rewrite space_iff. intros I. assert (Y : existsb (Nat.eqb (nat_of_ascii a)) [9; 10; 11; 12; 13; 28; 29; 30; 31; 32]%nat = true); [|congruence].
      apply existsb_exists. exists (nat_of_ascii a). split; [exact I|apply Nat.eqb_refl]. }
    rewrite S. rewrite <- (app_nil_r w2) at 1. rewrite words_plain by (intros b I; apply P, in_or_app; now right). cbn [split_words].
    destruct (rev w2 ++ a :: rev w1) eqn:R; [now destruct (rev w2)|]. rewrite <- R, rev_app_distr. cbn [rev]. rewrite !rev_involutive, <- app_assoc. reflexivity.
Qed.

(** ** C189 *)
(** "The value in the file is the value read": not if a unit follows the number directly.
    "qmax=25.5A" is read as "25." and "qmax=25A" is not read at all. *)
Definition unit_text (value : string) : chars := join_lines ([txt ("qmax=" ++ value)%string; txt "##### start data"; txt "1 2"]).
Theorem C189_unit_truncates_refuted :
  forall parse, (forall w, parse w <> None) ->
    exists t, parse_text parse (unit_text "25.5A") = Ok t /\ h_qmax (t_header t) = parse "25."%string.
Proof.
  intros parse P.
  assert (E : parse_text parse (unit_text "25.5A") = match parse "25."%string with Some v => Ok (mkText (mkHeader None (Some v) None None None None []) [["1"; "2"]%string]) | None => Err ValueError end) by (vm_compute; destruct (parse _); reflexivity).
  rewrite E. destruct (parse "25."%string) as [x|] eqn:EX; [|now apply P in EX]. eexists. split; reflexivity.
Qed.
Theorem C189_unit_hides_refuted :
  forall parse, exists t, parse_text parse (unit_text "25A") = Ok t /\ h_qmax (t_header t) = None.
Proof.
  intros parse. assert (E : parse_text parse (unit_text "25A") = Ok (mkText (mkHeader None None None None None None []) [["1"; "2"]%string])) by (vm_compute; reflexivity).
  rewrite E. eexists. split; reflexivity.
Qed.

(** ** Non-vacuity *)
Definition x_gen (v : fl) : chars := match v with Fin r => if Req_EM_T r 1 then txt "1" else txt "-2.5e-3" | _ => txt "nan" end.
Definition x_parse (w : string) : option fl := if String.eqb w "1" then Some (Fin 1) else if String.eqb w "-2.5e-3" then Some (Fin (- 25 / 10000)) else if String.eqb w "0" then Some (Fin 0) else None.
Definition x_view : view := mkView "a" [Fin 1; Fin 1] [Fin (- 25 / 10000); Fin 1] [Fin 1; Fin 1] [Fin 1; Fin (- 25 / 10000)] "N" (Fin 0) (Fin 1) (Fin (- 25 / 10000)) (Some (Fin 1)) (Fin 1) None None None
  [("temperature"%string, Fin 1); ("x_2"%string, Fin (- 25 / 10000))].
Lemma x_prints x : x = Fin 1 \/ x = Fin (- 25 / 10000) -> prints x_parse x_gen x x.
Proof.
  intros [ -> | -> ]; unfold prints, x_gen; destruct (Req_EM_T _ _) as [E|E]; try lra; (split; [|reflexivity]).
  - exists [], ["1"%char], [], []. split; [reflexivity|]. split; [now left|]. split; [split; [discriminate|reflexivity]|]. split; now left.
  - exists ["-"%char], ["2"%char], [".";"5"]%char, ["e";"-";"3"]%char. split; [reflexivity|]. split; [right; now left|]. split; [split; [discriminate|reflexivity]|].
    split; [right; exists ["5"%char]; split; [reflexivity|split; [discriminate|reflexivity]]|]. right. exists "e"%char, ["-"%char], ["3"%char]. split; [reflexivity|]. split; [now left|]. split; [right; now left|split; [discriminate|reflexivity]].
Qed.
Lemma x_plain s : existsb (Ascii.eqb newline) (txt s) = false -> existsb (Ascii.eqb "=") (txt s) = false -> plain (txt s).
Proof. intros H1 H2. split; [now apply known_nonl|now apply known_noeq]. Qed.
Example C186_nonvacuous : writable x_parse x_gen x_gen x_gen (txt "Wed Nov 18") (txt "alice") (fun x => x) (Fin 0) x_view /\
  ~ names_xray (txt "Wed Nov 18") /\ ~ names_xray (txt "alice") /\ names_xray (txt "XRayLab").
Proof.
  assert (NM : forall l w, (forall n m, map lower (firstn m (skipn n (txt l))) <> txt w) -> ~ mentions (txt l) w).
  { intros l w H (a & u & b & E & L). apply (H (List.length a) (List.length u)). rewrite E, skipn_app, skipn_all, Nat.sub_diag. cbn [app skipn]. rewrite firstn_app, firstn_all, Nat.sub_diag, firstn_O, app_nil_r. exact L. }
  assert (NX : forall l, (forall a, In a (map lower (txt l)) -> a <> "x"%char) -> ~ names_xray (txt l)).
  { intros l H. assert (G : forall w, In "x"%char (txt w) -> ~ mentions (txt l) w).
    { intros w I (a & u & b & E & L). rewrite <- L in I. apply (H "x"%char); [|reflexivity]. rewrite E, !map_app, !in_app_iff. auto. }
    intros [M|[M|M]]; revert M; apply G; cbn; auto 10. }
  split; [|split; [|split]].
  - constructor.
    + now apply x_plain.
    + now apply x_plain.
    + split; [intros _; reflexivity|intros C; contradiction C; reflexivity].
    + intros x I. apply x_prints. cbn in I. intuition congruence.
    + intros p [<-|[<-|[]]]; (split; [split; [discriminate|reflexivity]|apply x_prints; cbn; auto]).
    + repeat constructor; cbn; intuition discriminate.
    + repeat split.
  - apply NX. intros a I. cbn in I. repeat (destruct I as [<-|I]; [discriminate|]). destruct I.
  - apply NX. intros a I. cbn in I. repeat (destruct I as [<-|I]; [discriminate|]). destruct I.
  - left. exists [], (txt "XRay"), (txt "Lab"). split; reflexivity.
Qed.
Example C188_nonvacuous : forall parse,
  parse_text parse (join_lines ([txt "sample 1"; key_line (txt "QMax") 1 2 (txt "1"); txt "date: today"] ++ [txt "##### start data"; txt "#L r(A) G(r) d_r d_Gr"]) ++ txt "1 1") =
    match parse "1"%string with Some v => Ok (mkText (mkHeader None (Some v) None None None None []) [["1"; "1"]%string]) | None => Err ValueError end.
Proof. intros parse. vm_compute. destruct (parse _); reflexivity. Qed.
Print Assumptions C186_round_trip.
Print Assumptions C186_unchanged.
Print Assumptions C187_neutron_data_refuted.
Print Assumptions C187_spdiameter_refuted.
Print Assumptions C187_uncertainties_refuted.
Print Assumptions C187_empty_refuted.
Print Assumptions C188_header_values.
Print Assumptions C188_blank_characters.
Print Assumptions C189_unit_truncates_refuted.
Print Assumptions C189_unit_hides_refuted.

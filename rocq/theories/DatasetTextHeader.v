(** Lemmas for DatasetText.v: the header of writeStr as readStr sees it. *)
From Coq Require Import Reals String Ascii.
From Verif Require Import Prelude Evaluators Dataset DatasetProps DatasetText DatasetTextProofs DatasetTextLines.
Open Scope list_scope.

(** ** The expressions for one key each *)
Lemma qmax_keys : qmax_re = keys_re true [txt "qmax"]. Proof. reflexivity. Qed.
Lemma qdamp_keys : qdamp_re = keys_re true [txt "qdamp"; txt "qsig"]. Proof. reflexivity. Qed.
Lemma qbroad_keys : qbroad_re = keys_re true [txt "qbroad"; txt "qalp"]. Proof. reflexivity. Qed.
Lemma spdiameter_keys : spdiameter_re = keys_re true [txt "spdiameter"]. Proof. reflexivity. Qed.
Lemma dscale_keys : dscale_re = keys_re true [txt "dscale"]. Proof. reflexivity. Qed.
Lemma temperature_keys : temperature_re = keys_re false [txt "temp"; txt "temperature"; txt "T"]. Proof. reflexivity. Qed.
Lemma doping_keys : doping_re = keys_re false [txt "x"; txt "doping"]. Proof. reflexivity. Qed.
Definition is_key (r : re) : Prop := In r [qmax_re; qdamp_re; qbroad_re; spdiameter_re; dscale_re; temperature_re; doping_re].
Lemma key_form r : is_key r -> exists ci ws, r = keys_re ci ws /\ forall w, In w ws -> no_newline w.
Proof.
  assert (N : forall s, existsb (Ascii.eqb newline) (txt s) = false -> no_newline (txt s)).
  { intros s H I. assert (existsb (Ascii.eqb newline) (txt s) = true) by (apply existsb_exists; exists newline; split; [exact I|reflexivity]). congruence. }
  intros [<-|[<-|[<-|[<-|[<-|[<-|[<-|[]]]]]]]].
  1: rewrite qmax_keys. 2: rewrite qdamp_keys. 3: rewrite qbroad_keys. 4: rewrite spdiameter_keys. 5: rewrite dscale_keys. 6: rewrite temperature_keys. 7: rewrite doping_keys.
  all: eexists _, _; split; [reflexivity|]; intros w I; cbn [In] in I; repeat (destruct I as [<-|I]; [apply N; reflexivity|]); destruct I.
Qed.
Lemma key_noeq r l : is_key r -> ~ In "="%char l -> dull r l.
Proof. intros K N. destruct (key_form r K) as (ci & ws & -> & W). now apply noeq_dull. Qed.
Lemma key_noeq_skips r prev l rest : is_key r -> ~ In "="%char l -> skips r prev (l ++ [newline]) rest.
Proof. intros K N. destruct (key_form r K) as (ci & ws & -> & W). now apply noeq_skips. Qed.
Lemma key_never_end r prev : is_key r -> line_start prev -> never r prev [].
Proof. intros K [ -> | -> ] A c k; destruct K as [<-|[<-|[<-|[<-|[<-|[<-|[<-|[]]]]]]]]; reflexivity. Qed.

(** a line name=number for another key *)
Ltac key_cases K := destruct K as [<-|[<-|[<-|[<-|[<-|[<-|[<-|[]]]]]]]].
Ltac other_key K N := intros prev rest [ -> | -> ]; rewrite <- app_assoc; key_cases K; try contradiction; cbn [txt list_ascii_of_string app]; skip_text; (apply key_noeq_skips; [unfold is_key; cbn [In]; tauto|now apply numeral_noeq]).
Lemma qmax_other r t : is_key r -> r <> qmax_re -> numeral t -> dull r (txt "qmax=" ++ t).
Proof. intros K D N. other_key K N. Qed.
Lemma qdamp_other r t : is_key r -> r <> qdamp_re -> numeral t -> dull r (txt "qdamp=" ++ t).
Proof. intros K D N. other_key K N. Qed.
Lemma qbroad_other r t : is_key r -> r <> qbroad_re -> numeral t -> dull r (txt "qbroad=" ++ t).
Proof. intros K D N. other_key K N. Qed.
Lemma dscale_other r t : is_key r -> r <> dscale_re -> numeral t -> dull r (txt "dscale=" ++ t).
Proof. intros K D N. other_key K N. Qed.
Lemma noqmax_other r : is_key r -> r <> qmax_re -> dull r (txt "qmax=0   correction not applied").
Proof. intros K D prev rest [ -> | -> ]; key_cases K; try contradiction; cbn [txt list_ascii_of_string app]; skip_text; apply skips_nil. Qed.
Lemma stypeX_dull r : is_key r -> dull r (txt "stype=X  x-ray scattering").
Proof. intros K prev rest [ -> | -> ]; key_cases K; cbn [txt list_ascii_of_string app]; skip_text; apply skips_nil. Qed.
Lemma stypeN_dull r : is_key r -> dull r (txt "stype=N  neutron scattering").
Proof. intros K prev rest [ -> | -> ]; key_cases K; cbn [txt list_ascii_of_string app]; skip_text; apply skips_nil. Qed.
Definition start_lines : list chars := [txt "##### start data"; txt "#L r(A) G(r) d_r d_Gr"].
Lemma start_noeq l : In l (txt "##### PDFgui" :: start_lines) -> ~ In "="%char l.
Proof. intros [<-|[<-|[<-|[]]]] I; cbn in I; repeat (destruct I as [I|I]; [discriminate|]); destruct I. Qed.

(** the line of the key itself *)
Ltac hit N := intros prev pos rest P; exists pos, (newline :: rest);
  match goal with |- exists c, search _ _ _ _ = _ /\ group 1 c = ?t => exists [(1%nat, t)]; split; [|reflexivity]; apply search_hit; rewrite <- app_assoc;
    assert (V := value_run _ 1%nat t (Some "="%char) rest [] (fun _ s' c => Some (pos, s', c)) (pos, newline :: rest, [(1%nat, t)]) N eq_refl);
    destruct P as [ -> | -> ]; (etransitivity; [|exact V]; (reflexivity || (etransitivity; [apply alt_left; etransitivity; [|exact V]; reflexivity|symmetry; exact V])))
  end.
Lemma qmax_hits t : numeral t -> hits qmax_re (txt "qmax=" ++ t) t.
Proof. intros N. hit N. Qed.
Lemma dscale_hits t : numeral t -> hits dscale_re (txt "dscale=" ++ t) t.
Proof. intros N. hit N. Qed.
Lemma alt_key_hits A a b x prev s c (k : @cont A) v : xorb (word_at prev) (word_at (hd_error s)) = true ->
  run (Seq a x) prev s c k = Some v -> run (Seq Bnd (Seq (Alt a b) x)) prev s c k = Some v.
Proof. intros B R. rewrite run_seq. change (run Bnd ?p ?s ?c ?k) with (if xorb (word_at p) (word_at (hd_error s)) then k p s c else None). rewrite B. cbv beta. rewrite run_seq. apply alt_left. exact R. Qed.
Ltac hit2 N := intros prev pos rest P; exists pos, (newline :: rest);
  match goal with |- exists c, search _ _ _ _ = _ /\ group 1 c = ?t => exists [(1%nat, t)]; split; [|reflexivity]; apply search_hit; rewrite <- app_assoc;
    assert (V := value_run _ 1%nat t (Some "="%char) rest [] (fun _ s' c => Some (pos, s', c)) (pos, newline :: rest, [(1%nat, t)]) N eq_refl);
    destruct P as [ -> | -> ]; (apply alt_key_hits; [reflexivity|etransitivity; [|exact V]; reflexivity])
  end.
Lemma qdamp_hits t : numeral t -> hits qdamp_re (txt "qdamp=" ++ t) t.
Proof. intros N. hit2 N. Qed.
Lemma qbroad_hits t : numeral t -> hits qbroad_re (txt "qbroad=" ++ t) t.
Proof. intros N. hit2 N. Qed.
Lemma zero_run A prev s c (k : @cont A) x : k (Some "0"%char) (" "%char :: s) c = Some x -> run num prev ("0"%char :: " "%char :: s) c k = Some x.
Proof. intros K. unfold num, opt, plus, dig, one. cbn [run length star_loop]. cbn. rewrite K. reflexivity. Qed.
Lemma zero_value A prev s c (k : @cont A) x : k (Some "0"%char) (" "%char :: s) ((1%nat, ["0"%char]) :: c) = Some x ->
  run (Seq (Star (one " ")) (Seq (Grp 1 num) Bnd)) prev ("0"%char :: " "%char :: s) c k = Some x.
Proof.
  intros K. rewrite run_seq. unfold one. rewrite star_zero by reflexivity. rewrite run_seq.
  change (run (Grp ?n ?r) ?p ?s ?c ?k) with (run r p s c (fun p' s' c' => k p' s' ((n, firstn (length s - length s') s) :: c'))). apply zero_run.
  change (run Bnd ?p ?s ?c ?k) with (if xorb (word_at p) (word_at (hd_error s)) then k p s c else None). cbn [word_at hd_error].
  replace (length ("0"%char :: " "%char :: s) - length (" "%char :: s))%nat with 1%nat by (cbn [length]; lia). exact K.
Qed.
Lemma noqmax_hits : hits qmax_re (txt "qmax=0   correction not applied") ["0"%char].
Proof.
  intros prev pos rest P. exists pos, (txt "   correction not applied" ++ newline :: rest), [(1%nat, ["0"%char])]. split; [|reflexivity]. apply search_hit.
  pose proof (zero_value _ (Some "="%char) (txt "  correction not applied" ++ newline :: rest) [] (fun _ s' c => Some (pos, s', c)) _ eq_refl) as V.
  destruct P as [ -> | -> ]; (etransitivity; [|exact V]; reflexivity).
Qed.

(** ** Scattering type *)
Definition mentions (l : chars) (w : string) : Prop := exists a u b, l = a ++ u ++ b /\ map lower u = txt w.
Lemma xray_lang u : lang xray_re u -> map lower u = txt "xray" \/ map lower u = txt "x-ray" \/ map lower u = txt "pdfgetx".
Proof.
  assert (ONE : forall a v, lang (one_i a) v -> map lower v = [lower a]) by (intros a v (b & -> & H); apply Ascii.eqb_eq in H; cbn; now rewrite H).
  intros [(v & w & -> & H1 & (y & z & -> & H2 & H3))|H]; [|right; right; apply lang_lit_i in H; exact H].
  apply ONE in H1. apply lang_lit_i in H3. rewrite !map_app, H1, H3. destruct H2 as [H2|H2]; [apply ONE in H2; rewrite H2; right; left; reflexivity|cbn in H2; subst y; left; reflexivity].
Qed.
Lemma search_some r s : forall pos prev a b, s = a ++ b -> (forall pos, run r (after prev a) b [] (fun _ s' c => Some (pos : nat, s', c)) <> None) -> search r pos prev s <> None.
Proof.
  induction s as [|x s IH]; intros pos prev a b E H.
  - symmetry in E. apply app_eq_nil in E as (-> & ->). cbn [search]. specialize (H pos). change (after prev []) with prev in H. destruct (run _ _ _ _ _); [discriminate|contradiction].
  - destruct a as [|y a].
    + cbn [app] in E. subst b. cbn [search]. specialize (H pos). change (after prev []) with prev in H. destruct (run _ _ _ _ _); [discriminate|contradiction].
    + cbn in E. injection E as -> E. cbn [search]. destruct (run _ _ _ _ _); [discriminate|]. apply (IH _ _ a b E). intros p0. rewrite <- (after_cons prev). apply H.
Qed.
Lemma xray_letters prev l rest : (forall a, In a l -> lower a <> "x"%char /\ lower a <> "p"%char) -> skips xray_re prev (l ++ [newline]) rest.
Proof.
  intros H a b E NB A c k. destruct (run xray_re (after prev a) (b ++ rest) c k) as [x|] eqn:R; [exfalso|reflexivity].
  apply run_sound in R as (u & p' & s' & c' & ES & LU & _). apply xray_lang in LU. destruct b as [|y b]; [contradiction|]. destruct u as [|z u]; [destruct LU as [L|[L|L]]; discriminate|].
  cbn in ES. injection ES as -> _. assert (I : In z (l ++ [newline])) by (rewrite E; apply in_or_app; right; now left). apply in_app_or in I as [I|[<-|[]]].
  - destruct (H z I). destruct LU as [L|[L|L]]; cbn in L; injection L; intros; contradiction.
  - destruct LU as [L|[L|L]]; discriminate.
Qed.
Lemma numeral_letters t a : numeral t -> In a t -> lower a <> "x"%char /\ lower a <> "p"%char.
Proof.
  intros N I. apply (numeral_chars t N) in I as [D|I].
  - destruct a as [[] [] [] [] [] [] [] []]; try discriminate D; split; discriminate.
  - cbn [In] in I. repeat (destruct I as [<-|I]; [split; discriminate|]). destruct I.
Qed.
Ltac xray_line := intros prev rest [ -> | -> ]; try rewrite <- app_assoc; cbn [txt list_ascii_of_string app]; skip_text; (apply skips_nil || (apply xray_letters; intros ? ?; eapply numeral_letters; eassumption)).
Lemma xray_pdfgui : dull xray_re (txt "##### PDFgui"). Proof. xray_line. Qed.
Lemma xray_neutron : dull xray_re (txt "stype=N  neutron scattering"). Proof. xray_line. Qed.
Lemma xray_noqmax : dull xray_re (txt "qmax=0   correction not applied"). Proof. xray_line. Qed.
Lemma xray_qmax t : numeral t -> dull xray_re (txt "qmax=" ++ t). Proof. intros N. xray_line. Qed.
Lemma xray_qdamp t : numeral t -> dull xray_re (txt "qdamp=" ++ t). Proof. intros N. xray_line. Qed.
Lemma xray_qbroad t : numeral t -> dull xray_re (txt "qbroad=" ++ t). Proof. intros N. xray_line. Qed.
Lemma xray_dscale t : numeral t -> dull xray_re (txt "dscale=" ++ t). Proof. intros N. xray_line. Qed.
Lemma xray_start l : In l start_lines -> dull xray_re l. Proof. intros [<-|[<-|[]]]; xray_line. Qed.
Definition clean (l : chars) : Prop := no_newline l /\ ~ mentions l "xray" /\ ~ mentions l "x-ray" /\ ~ mentions l "pdfgetx".
Lemma xray_clean prev l rest : clean l -> skips xray_re prev (l ++ [newline]) rest.
Proof.
  intros (NN & M1 & M2 & M3) a b E NB A c k. destruct (run xray_re (after prev a) (b ++ rest) c k) as [x|] eqn:R; [exfalso|reflexivity].
  apply run_sound in R as (u & p' & s' & c' & ES & LU & _). apply xray_lang in LU. destruct (exists_last NB) as (b' & z & ->). rewrite app_assoc in E. apply app_inj_tail in E as (-> & <-).
  rewrite <- app_assoc in ES. cbn [app] in ES. symmetry in ES. apply prefix_before in ES as (b'' & -> & _).
  - destruct LU as [L|[L|L]]; [apply M1|apply M2|apply M3]; exists a, u, b''; auto.
  - intros I. assert (J : In newline (map lower u)) by (apply in_map_iff; exists newline; auto). destruct LU as [L|[L|L]]; rewrite L in J; cbn in J; repeat (destruct J as [J|J]; [discriminate|]); destruct J.
Qed.
Lemma xray_history time : clean time -> dull xray_re (txt "History written: " ++ time).
Proof. intros C prev rest [ -> | -> ]; rewrite <- app_assoc; cbn [txt list_ascii_of_string app]; skip_text; now apply xray_clean. Qed.
Lemma xray_user user : clean user -> dull xray_re (txt "produced by " ++ user).
Proof. intros C prev rest [ -> | -> ]; rewrite <- app_assoc; cbn [txt list_ascii_of_string app]; skip_text; now apply xray_clean. Qed.

(** ** Where the data and the metadata start *)
Lemma bol_dull r l : no_newline l -> (forall prev rest, line_start prev -> never r prev (l ++ newline :: rest)) -> dull (Seq Bol r) l.
Proof. intros NN H prev rest P. apply bol_skips; [exact NN|exact P|now apply H]. Qed.
Definition unhashed (l : chars) : Prop := match l with a :: _ => Ascii.eqb "#" a = false | [] => False end.
Lemma unhashed_never r prev l s : unhashed l -> never (Seq (plus (one "#")) r) prev (l ++ s).
Proof. destruct l as [|a l]; [contradiction|]. intros H A c k. unfold plus. rewrite !run_seq. cbn [app]. now apply one_miss. Qed.
Lemma start_dull l : no_newline l -> unhashed l -> dull start_re l.
Proof. intros NN H. apply bol_dull; [exact NN|]. intros. now apply unhashed_never. Qed.
Lemma metadata_dull l : no_newline l -> unhashed l -> dull metadata_re l.
Proof. intros NN H. apply bol_dull; [exact NN|]. intros. now apply unhashed_never. Qed.
Lemma known_nonl s : existsb (Ascii.eqb newline) (txt s) = false -> no_newline (txt s).
Proof. intros H I. assert (existsb (Ascii.eqb newline) (txt s) = true) by (apply existsb_exists; exists newline; split; [exact I|reflexivity]). congruence. Qed.
Lemma star_none A p u : forall prev s c (k : @cont A), (match s with [] => True | a :: _ => p a = false end) ->
  (forall prev' a b, In a u -> k prev' (a :: b) c = None) -> (forall prev', k prev' s c = None) -> run (Star (Chr p)) prev (u ++ s) c k = None.
Proof.
  intros prev s c k Hs Hu Hk. cbn [run].
  assert (G : forall n, star_loop (run (Chr p)) k n prev (u ++ s) c = None); [|apply G].
  intros n. revert prev n. induction u as [|a u IH]; intros prev n.
  - destruct n as [|n]; [apply Hk|]. cbn [app star_loop run]. destruct s as [|b s]; [apply Hk|]. rewrite Hs. apply Hk.
  - destruct n as [|n]; [cbn [star_loop app]; apply Hu; now left|]. cbn [app star_loop run]. destruct (p a); [|apply Hu; now left].
    destruct (_ <? _)%nat; [|apply Hu; now left]. rewrite IH; [apply Hu; now left|]. intros prev' a' b I. apply Hu. now right.
Qed.
(** "#...# rest of the line": the expression has to go on after the last "#" *)
Lemma hashes_never r prev n s : match s with [] => True | a :: _ => Ascii.eqb "#" a = false end -> (forall prev b, never r prev ("#"%char :: b)) -> (forall prev, never r prev s) ->
  never (Seq (plus (one "#")) r) prev (repeat "#"%char (S n) ++ s).
Proof.
  intros Hs H1 H2 A c k. unfold plus. rewrite !run_seq. cbn [repeat app]. rewrite one_hit. unfold one. apply star_none; [exact Hs| |].
  - intros prev' a b I. apply repeat_spec in I as ->. apply H1.
  - intros prev'. apply H2.
Qed.
Lemma start_pdfgui : dull start_re (txt "##### PDFgui").
Proof. apply bol_dull; [now apply known_nonl|]. intros prev rest _. apply (hashes_never _ _ 4); [reflexivity| |]; intros; intros A c k; reflexivity. Qed.
Lemma start_metadata : dull start_re (txt "# metadata").
Proof. apply bol_dull; [now apply known_nonl|]. intros prev rest _. apply (hashes_never _ _ 0); [reflexivity| |]; intros; intros A c k; reflexivity. Qed.
(** spaces and then something else *)
Lemma spaces_never r prev s : match s with [] => True | a :: _ => Ascii.eqb " " a = false end -> (forall prev, never r prev s) -> never (Seq (plus (one " ")) r) prev (" "%char :: s).
Proof. intros Hs H A c k. unfold plus. rewrite !run_seq, one_hit. unfold one. apply (star_none _ _ []); [exact Hs|intros ? ? ? []|intros prev'; apply H]. Qed.
Lemma metadata_pdfgui : dull metadata_re (txt "##### PDFgui").
Proof.
  apply bol_dull; [now apply known_nonl|]. intros prev rest _. apply (hashes_never _ _ 4); [reflexivity| |]; intros.
  - intros A c k. reflexivity.
  - apply spaces_never; [reflexivity|]. intros ? A c k. reflexivity.
Qed.
Lemma metadata_start l : In l start_lines -> dull metadata_re l.
Proof.
  intros [<-|[<-|[]]]; (apply bol_dull; [now apply known_nonl|]; intros prev rest _).
  - apply (hashes_never _ _ 4); [reflexivity| |]; intros; [intros A c k; reflexivity|]. apply spaces_never; [reflexivity|]. intros ? A c k. reflexivity.
  - apply (hashes_never _ _ 0); [reflexivity| |]; intros; intros A c k; reflexivity.
Qed.
(** the two that match *)
Lemma hashes_run A r prev n s c (k : @cont A) x : match s with [] => True | a :: _ => Ascii.eqb "#" a = false end -> run r (Some "#"%char) s c k = Some x ->
  run (Seq (plus (one "#")) r) prev (repeat "#"%char (S n) ++ s) c k = Some x.
Proof.
  intros Hs H. rewrite run_seq. unfold one. apply plus_chr; [discriminate| |exact Hs|].
  - apply forallb_forall. intros a I. apply repeat_spec in I as ->. reflexivity.
  - replace (after prev (repeat "#"%char (S n))) with (Some "#"%char); [exact H|]. clear. revert prev. induction n as [|n IH]; intros prev; [reflexivity|]. cbn [repeat]. rewrite after_cons. apply IH.
Qed.
Lemma metadata_hit pos prev rest : line_start prev -> search metadata_re pos prev (txt "# metadata" ++ newline :: rest) = Some (pos, rest, []).
Proof.
  intros P. apply search_hit. unfold metadata_re. rewrite run_seq.
  match goal with |- run Bol _ _ _ ?k = _ => assert (K : k prev (txt "# metadata" ++ newline :: rest) [] = Some (pos, rest, [])) end.
  { cbv beta. apply (hashes_run _ _ _ 0); [reflexivity|]. rewrite run_seq. unfold one at 1. apply (plus_chr _ [" "%char]); [discriminate|reflexivity|reflexivity|]. reflexivity. }
  destruct P as [ -> | -> ]; exact K.
Qed.
Lemma start_hit pos prev rest : line_start prev -> match rest with [] => True | a :: _ => space a = false /\ Ascii.eqb "#" a = false end ->
  search start_re pos prev (join_lines start_lines ++ rest) = Some (pos, rest, []).
Proof.
  intros P HR. apply search_hit. unfold start_re. rewrite run_seq.
  match goal with |- run Bol _ _ _ ?k = _ => assert (K : k prev (join_lines start_lines ++ rest) [] = Some (pos, rest, [])) end.
  { cbv beta. apply (hashes_run _ _ _ 4 (txt " start data" ++ newline :: txt "#L r(A) G(r) d_r d_Gr" ++ newline :: rest)); [reflexivity|].
    match goal with |- run (Seq (lit _) ?r) ?p ?s ?c ?k = ?x => change (run r (Some "a"%char) (newline :: txt "#L r(A) G(r) d_r d_Gr" ++ newline :: rest) c k = x) end.
    rewrite run_seq. apply (star_chr space [newline]); [reflexivity|reflexivity|].
    match goal with |- run (Star ?a) ?p ?s ?c ?k = _ => assert (ST : forall n p', star_loop (run a) k (S n) p' s c = Some (pos, rest, [])) end.
    { intros n p'. cbn [star_loop].
      match goal with |- match run (Seq _ (Seq (Star (Chr ?q)) _)) _ _ _ ?kk with _ => _ end = _ => assert (IN : run (Seq (one "#") (Seq (Star (Chr q)) (plus (Chr space)))) p' (txt "#L r(A) G(r) d_r d_Gr" ++ newline :: rest) [] kk = Some (pos, rest, [])) end; [|rewrite IN; reflexivity].
      rewrite run_seq. change (run (one "#") ?p (txt "#L r(A) G(r) d_r d_Gr" ++ newline :: rest) ?c ?k) with (k (Some "#"%char) (txt "L r(A) G(r) d_r d_Gr" ++ newline :: rest) c). cbv beta.
      rewrite run_seq. apply star_chr; [reflexivity|reflexivity|]. apply (plus_chr space [newline]); [discriminate|reflexivity|destruct rest; [exact I|apply HR]|].
      rewrite (proj2 (Nat.ltb_lt _ _)) by (rewrite app_length; cbn [length]; lia). destruct n as [|n]; [reflexivity|]. cbn [star_loop].
      destruct rest as [|z rest]; [reflexivity|]. destruct HR as (_ & HR). rewrite run_seq, one_miss by exact HR. reflexivity. }
    change (length (txt "#L r(A) G(r) d_r d_Gr" ++ newline :: rest)) with (S (length (txt "L r(A) G(r) d_r d_Gr" ++ newline :: rest))) in *. cbn [run]. apply ST. }
  destruct P as [ -> | -> ]; exact K.
Qed.

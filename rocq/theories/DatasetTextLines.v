(** Lemmas for DatasetText.v: headers made of lines, and the data lines. *)
From Coq Require Import Reals String Ascii.
From Verif Require Import Prelude Evaluators Dataset DatasetProps DatasetText DatasetTextProofs.
Open Scope list_scope.

Lemma prefix_before (z : ascii) u : forall s b rest, u ++ s = b ++ z :: rest -> ~ In z u -> exists b', b = u ++ b' /\ s = b' ++ z :: rest.
Proof.
  induction u as [|x u IH]; intros s b rest E N; [exists b; auto|]. destruct b as [|y b]; cbn in E.
  - injection E as -> E. exfalso. apply N. now left.
  - injection E as -> E. destruct (IH s b rest E) as (b' & -> & ->); [intros I; apply N; now right|]. exists b'. auto.
Qed.
Lemma lower_newline a : lower a = newline -> a = newline.
Proof. destruct a as [[] [] [] [] [] [] [] []]; intros H; try discriminate H; reflexivity. Qed.
Lemma norm_no_newline ci u w : norm ci u = norm ci w -> no_newline w -> no_newline u.
Proof.
  destruct ci; cbn [norm]; [|intros ->; auto]. intros E N I. apply N. assert (J : In newline (map lower w)) by (rewrite <- E; apply in_map_iff; exists newline; auto).
  apply in_map_iff in J as (a & L & J). apply lower_newline in L as ->. exact J.
Qed.
Lemma spaces_no_newline sp : forallb (Ascii.eqb " ") sp = true -> no_newline sp.
Proof. intros H I. rewrite forallb_forall in H. apply H in I. discriminate. Qed.

(** ** Lines without a match *)
Definition line_start (prev : option ascii) : Prop := prev = None \/ prev = Some newline.
Definition dull (r : re) (l : chars) : Prop := forall prev rest, line_start prev -> skips r prev (l ++ [newline]) rest.
Lemma join_cons l ls : join_lines (l :: ls) = (l ++ [newline]) ++ join_lines ls.
Proof. reflexivity. Qed.
Lemma join_app a b : join_lines (a ++ b) = join_lines a ++ join_lines b.
Proof. unfold join_lines. now rewrite map_app, concat_app. Qed.
Lemma dull_lines r ls : forall prev rest, line_start prev -> Forall (dull r) ls -> skips r prev (join_lines ls) rest /\ line_start (after prev (join_lines ls)).
Proof.
  induction ls as [|l ls IH]; intros prev rest P F; [split; [apply skips_nil|exact P]|]. inversion F as [|? ? D F']; subst. rewrite join_cons.
  destruct (IH (Some newline) rest (or_intror eq_refl) F') as (S1 & S2). split.
  - apply skips_app; [now apply D|]. rewrite after_line. exact S1.
  - rewrite after_app, after_line. exact S2.
Qed.
Lemma search_lines r ls pos prev rest : line_start prev -> Forall (dull r) ls ->
  search r pos prev (join_lines ls ++ rest) = search r (pos + length (join_lines ls)) (after prev (join_lines ls)) rest.
Proof. intros P F. apply search_skip. now apply dull_lines. Qed.
Lemma search_lines_none r ls : Forall (dull r) ls -> never r None [] -> never r (Some newline) [] -> search r 0 None (join_lines ls) = None.
Proof. intros F N1 N2. destruct (dull_lines r ls None [] (or_introl eq_refl) F) as (S1 & [S2|S2]); apply search_none; try assumption; now rewrite S2. Qed.

Lemma skips_cons r prev x l rest : never r prev (x :: l ++ rest) -> skips r (Some x) l rest -> skips r prev (x :: l) rest.
Proof. intros N H. change (x :: l) with ([x] ++ l). apply skips_app; [now apply skips_one|exact H]. Qed.
(** A part of a line that cannot hold a match because there is no "=" *)
Lemma noeq_skips ci ws prev l rest : (forall w, In w ws -> no_newline w) -> ~ In "="%char l -> skips (keys_re ci ws) prev (l ++ [newline]) rest.
Proof.
  intros W NE a b E NB A c k. destruct (run (keys_re ci ws) (after prev a) (b ++ rest) c k) as [x|] eqn:R; [exfalso|reflexivity].
  apply key_shape in R as (_ & kx & sp & t & w & ES & Iw & EN & HS). destruct (exists_last NB) as (b' & z & ->). rewrite app_assoc in E. apply app_inj_tail in E as (-> & <-).
  rewrite <- app_assoc in ES. cbn [app] in ES. symmetry in ES. rewrite app_assoc in ES. change ("="%char :: t) with (["="%char] ++ t) in ES. rewrite app_assoc in ES.
  apply prefix_before in ES as (b'' & -> & _).
  - apply NE. apply in_or_app. right. apply in_or_app. left. apply in_or_app. right. now left.
  - intros I. apply in_app_or in I as [I|[I|[]]]; [|discriminate]. apply in_app_or in I as [I|I]; [|now apply (spaces_no_newline sp HS)]. exact (norm_no_newline _ _ _ EN (W w Iw) I).
Qed.
Lemma noeq_dull ci ws l : (forall w, In w ws -> no_newline w) -> ~ In "="%char l -> dull (keys_re ci ws) l.
Proof. intros W N prev rest _. now apply noeq_skips. Qed.

(** ** Lines of which the beginning is known *)
Ltac skip_text := repeat (apply skips_cons; [intros ? ? ?; reflexivity|]).
Lemma numeral_chars t : numeral t -> forall a, In a t -> digit a = true \/ In a ["-"; "+"; "."; "e"; "E"]%char.
Proof.
  intros (sg & d & fr & ex & -> & Hs & Hd & Hf & He) a I.
  assert (D : forall d, digits d -> In a d -> digit a = true) by (intros d0 (_ & H) J; rewrite forallb_forall in H; now apply H).
  assert (G : forall s, sign s -> In a s -> In a ["-"; "+"; "."; "e"; "E"]%char) by (intros s [ -> | [ -> | -> ]] J; cbn in *; tauto).
  apply in_app_or in I as [I|I]; [right; eauto|]. apply in_app_or in I as [I|I]; [left; eauto|]. apply in_app_or in I as [I|I].
  - destruct Hf as [ -> |(d2 & -> & Hd2)]; [destruct I|]. destruct I as [<-|I]; [cbn; auto|]. left. eauto.
  - destruct He as [ -> |(e & s & d2 & -> & He & Hs2 & Hd2)]; [destruct I|]. destruct I as [<-|I]; [right; destruct He as [ -> | -> ]; cbn; auto 8|].
    apply in_app_or in I as [I|I]; [right; eauto|left; eauto].
Qed.
Lemma numeral_not t a : numeral t -> digit a = false -> ~ In a ["-"; "+"; "."; "e"; "E"]%char -> ~ In a t.
Proof. intros N D G I. apply (numeral_chars t N) in I as [I|I]; [congruence|contradiction]. Qed.
Lemma numeral_noeq t : numeral t -> ~ In "="%char t.
Proof. intros N. apply numeral_not; [exact N|reflexivity|cbn; intuition discriminate]. Qed.
Lemma numeral_nonl t : numeral t -> no_newline t.
Proof. intros N. apply numeral_not; [exact N|reflexivity|cbn; intuition discriminate]. Qed.
Lemma numeral_last t prev : numeral t -> exists a, after prev t = Some a /\ digit a = true.
Proof.
  intros (sg & d & fr & ex & -> & Hs & Hd & Hf & He). assert (D : forall d p, digits d -> exists a, after p d = Some a /\ digit a = true).
  { intros d0 p (NE & H). destruct (exists_last NE) as (d' & a & ->). exists a. split; [rewrite after_app; reflexivity|]. rewrite forallb_forall in H. apply H. apply in_or_app. right. now left. }
  rewrite !after_app. destruct He as [ -> |(e & s & d2 & -> & _ & _ & Hd2)]; [|rewrite after_cons, after_app; now apply D].
  change (after ?p []) with p. destruct Hf as [ -> |(d2 & -> & Hd2)]; [change (after ?p []) with p; now apply D|]. rewrite after_cons. now apply D.
Qed.
Lemma numeral_head t : numeral t -> exists a t', t = a :: t' /\ space a = false /\ Ascii.eqb " " a = false /\ Ascii.eqb "#" a = false.
Proof.
  intros (sg & d & fr & ex & -> & Hs & Hd & _). destruct (digits_first d Hd) as (a & d' & -> & Ha & _). destruct (digit_facts a Ha) as (_ & _ & _ & _ & _ & F1 & _ & _ & F2 & _ & F3).
  destruct Hs as [ -> | [ -> | -> ]]; cbn; eauto 8.
Qed.

(** ** The value of a key *)
Section Field.
Variable parse : string -> option fl.
Definition value_of (t : chars) : result (option fl) := match parse (str t) with Some v => Ok (Some v) | None => Err ValueError end.
Definition hits (r : re) (l t : chars) : Prop :=
  forall prev pos rest, line_start prev -> exists p rest' c, search r pos prev (l ++ newline :: rest) = Some (p, rest', c) /\ group 1 c = t.
Lemma field_hit r pre l t post : Forall (dull r) pre -> hits r l t -> field parse r (join_lines (pre ++ l :: post)) = value_of t.
Proof.
  intros F H. unfold field. rewrite join_app, search_lines; [|now left|exact F]. rewrite join_cons, <- app_assoc. cbn [app].
  destruct (H (after None (join_lines pre)) (0 + length (join_lines pre))%nat (join_lines post)) as (p & rest' & c & -> & ->); [now apply (dull_lines r pre None []); [left|]|reflexivity].
Qed.
Lemma field_none r ls : Forall (dull r) ls -> never r None [] -> never r (Some newline) [] -> field parse r (join_lines ls) = Ok None.
Proof. intros F N1 N2. unfold field. now rewrite search_lines_none. Qed.
End Field.
(** The number after "=" *)
Lemma value_run A n t prev s c (k : @cont A) x : numeral t -> k (after prev t) (newline :: s) ((n, t) :: c) = Some x ->
  run (Seq (Star (one " ")) (Seq (Grp n num) Bnd)) prev (t ++ newline :: s) c k = Some x.
Proof.
  intros N K. destruct (numeral_head t N) as (a & t' & E & _ & HS & _). rewrite run_seq. unfold one. rewrite star_zero; [|rewrite E; cbn; exact HS].
  rewrite run_seq. change (run (Grp ?n ?r) ?p ?s ?c ?k) with (run r p s c (fun p' s' c' => k p' s' ((n, firstn (length s - length s') s) :: c'))).
  apply num_run; [exact N|]. destruct (numeral_last t prev N) as (z & EZ & DZ). destruct (digit_facts z DZ) as (_ & _ & _ & _ & _ & _ & _ & _ & _ & WZ & _).
  rewrite EZ in K |- *. cbv beta. change (run Bnd ?p ?s ?c ?k) with (if xorb (word_at p) (word_at (hd_error s)) then k p s c else None).
  cbn [word_at hd_error]. rewrite WZ. change (is_word newline) with false. cbn [xorb].
  replace (length (t ++ newline :: s) - length (newline :: s))%nat with (length t) by (rewrite app_length; lia). rewrite firstn_app, Nat.sub_diag, firstn_O, app_nil_r, firstn_all. exact K.
Qed.

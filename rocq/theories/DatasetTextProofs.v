(** Lemmas for DatasetText.v: the regular expressions on the texts writeStr produces. *)
From Coq Require Import Reals String Ascii.
From Verif Require Import Prelude Evaluators Dataset DatasetProps DatasetText.
Open Scope list_scope.

(** ** What a match consumes *)
Inductive lang_star (L : chars -> Prop) : chars -> Prop :=
| ls_nil : lang_star L []
| ls_app : forall u v, L u -> lang_star L v -> lang_star L (u ++ v).
Fixpoint lang (r : re) (u : chars) : Prop :=
  match r with
  | Chr p => exists a, u = [a] /\ p a = true
  | Bol | Bnd | Eps => u = []
  | Seq a b => exists v w, u = v ++ w /\ lang a v /\ lang b w
  | Alt a b => lang a u \/ lang b u
  | Star a => lang_star (lang a) u
  | Grp _ a => lang a u
  end.
Section Sound.
Context {A : Type}.
Notation cont := (@cont A).
Lemma run_sound r : forall prev s c (k : cont) x, run r prev s c k = Some x -> exists u p' s' c', s = u ++ s' /\ lang r u /\ k p' s' c' = Some x.
Proof.
  induction r as [p| | | |a IHa b IHb|a IHa b IHb|a IHa|n a IHa]; intros prev s c k x E.
  - destruct s as [|h t]; [discriminate|]. cbn in E. destruct (p h) eqn:P; [|discriminate]. exists [h], (Some h), t, c. cbn. eauto.
  - cbn in E. exists [], prev, s, c. split; [reflexivity|]. split; [reflexivity|]. destruct prev as [h|]; [destruct (Ascii.eqb h newline); [exact E|discriminate]|exact E].
  - cbn in E. destruct (xorb _ _); [|discriminate]. exists [], prev, s, c. cbn. auto.
  - exists [], prev, s, c. cbn in *. auto.
  - cbn in E. apply IHa in E as (u & p' & s' & c' & -> & Lu & E). apply IHb in E as (v & p'' & s'' & c'' & -> & Lv & E).
    exists (u ++ v), p'', s'', c''. split; [now rewrite app_assoc|]. cbn. split; [eauto|exact E].
  - cbn in E. destruct (run a prev s c k) as [y|] eqn:Ea.
    + injection E as ->. apply IHa in Ea as (u & p' & s' & c' & H1 & H2 & H3). exists u, p', s', c'. cbn. auto.
    + apply IHb in E as (u & p' & s' & c' & H1 & H2 & H3). exists u, p', s', c'. cbn. auto.
  - cbn [run] in E. revert E. generalize (length s) as n. intros n. revert prev s c. induction n as [|n IHn]; intros prev s c E.
    + cbn in E. exists [], prev, s, c. cbn. auto using ls_nil.
    + cbn [star_loop] in E. destruct (run a prev s c _) as [y|] eqn:Ea.
      * injection E as ->. apply IHa in Ea as (u & p' & s' & c' & -> & Lu & E). destruct (_ <? _)%nat; [|discriminate]. apply IHn in E as (v & p'' & s'' & c'' & -> & Lv & E).
        exists (u ++ v), p'', s'', c''. split; [now rewrite app_assoc|]. cbn. split; [now constructor|exact E].
      * exists [], prev, s, c. cbn. auto using ls_nil.
  - cbn in E. apply IHa in E as (u & p' & s' & c' & -> & Lu & E). exists u, p', s', ((n, firstn (length (u ++ s') - length s') (u ++ s')) :: c'). cbn. auto.
Qed.

(** ** Greedy repetitions *)
Definition after (prev : option ascii) (u : chars) : option ascii := match rev u with [] => prev | a :: _ => Some a end.
Lemma after_cons prev a u : after prev (a :: u) = after (Some a) u.
Proof. unfold after. cbn [rev]. destruct (rev u); reflexivity. Qed.
Lemma after_app prev u v : after prev (u ++ v) = after (after prev u) v.
Proof. revert prev. induction u as [|a u IH]; intros prev; [reflexivity|]. cbn [app]. now rewrite !after_cons, IH. Qed.
Lemma star_chr p u : forall prev s c (k : cont) x, forallb p u = true -> (match s with [] => True | a :: _ => p a = false end) ->
  k (after prev u) s c = Some x -> run (Star (Chr p)) prev (u ++ s) c k = Some x.
Proof.
  intros prev s c k x Hu Hs Hk. cbn [run].
  assert (G : forall n, (length (u ++ s) <= n)%nat -> star_loop (run (Chr p)) k n prev (u ++ s) c = Some x).
  { revert prev Hk. induction u as [|a u IH]; intros prev Hk n Hn.
    - cbn [app] in *. destruct n as [|n]; [exact Hk|]. cbn [star_loop run]. destruct s as [|b s]; [exact Hk|]. rewrite Hs. exact Hk.
    - cbn [app length] in *. destruct n as [|n]; [lia|]. cbn in Hu. apply andb_true_iff in Hu as (Ha & Hu). cbn [star_loop run]. rewrite Ha.
      rewrite (proj2 (Nat.ltb_lt _ _)) by (cbn [length]; lia). rewrite IH; [reflexivity|exact Hu|rewrite <- (after_cons prev); exact Hk|lia]. }
  apply G. lia.
Qed.
(** The repetition fails only if the rest fails at the end of the run of matching characters and
    everywhere in it. *)
Lemma star_zero p prev s c (k : cont) : (match s with [] => True | a :: _ => p a = false end) -> run (Star (Chr p)) prev s c k = k prev s c.
Proof. intros Hs. cbn [run]. destruct s as [|a s]; [reflexivity|]. cbn [length star_loop run]. now rewrite Hs. Qed.
Lemma plus_chr p u : forall prev s c (k : cont) x, u <> [] -> forallb p u = true -> (match s with [] => True | a :: _ => p a = false end) ->
  k (after prev u) s c = Some x -> run (plus (Chr p)) prev (u ++ s) c k = Some x.
Proof.
  intros prev s c k x NE Hu Hs Hk. destruct u as [|a u]; [contradiction|]. cbn in Hu. apply andb_true_iff in Hu as (Ha & Hu). unfold plus. cbn [run app]. rewrite Ha.
  apply (star_chr p u (Some a) s c k x Hu Hs). rewrite <- (after_cons prev). exact Hk.
Qed.
Lemma run_seq a b prev s c (k : cont) : run (Seq a b) prev s c k = run a prev s c (fun p' s' c' => run b p' s' c' k).
Proof. reflexivity. Qed.
Lemma one_hit a prev s c (k : cont) : run (one a) prev (a :: s) c k = k (Some a) s c.
Proof. unfold one. cbn [run]. now rewrite Ascii.eqb_refl. Qed.
Lemma one_miss a b prev s c (k : cont) : Ascii.eqb a b = false -> run (one a) prev (b :: s) c k = None.
Proof. intros H. unfold one. cbn [run]. now rewrite H. Qed.
Lemma alt_left a b prev s c (k : cont) x : run a prev s c k = Some x -> run (Alt a b) prev s c k = Some x.
Proof. intros E. cbn. now rewrite E. Qed.
Lemma alt_right a b prev s c (k : cont) : run a prev s c k = None -> run (Alt a b) prev s c k = run b prev s c k.
Proof. intros E. cbn. now rewrite E. Qed.

(** ** Numerals *)
Definition digits (u : chars) : Prop := u <> [] /\ forallb digit u = true.
Definition sign (u : chars) : Prop := u = [] \/ u = ["-"%char] \/ u = ["+"%char].
Definition fraction (u : chars) : Prop := u = [] \/ exists d, u = "."%char :: d /\ digits d.
Definition exponent (u : chars) : Prop := u = [] \/ exists e sg d, u = e :: sg ++ d /\ (e = "e"%char \/ e = "E"%char) /\ sign sg /\ digits d.
Definition numeral (t : chars) : Prop := exists sg d fr ex, t = sg ++ d ++ fr ++ ex /\ sign sg /\ digits d /\ fraction fr /\ exponent ex.

Lemma digit_facts a : digit a = true -> Ascii.eqb "-" a = false /\ Ascii.eqb "+" a = false /\ Ascii.eqb "." a = false /\ Ascii.eqb "e" a = false /\ Ascii.eqb "E" a = false /\ Ascii.eqb "#" a = false /\ Ascii.eqb "=" a = false /\ Ascii.eqb a newline = false /\ space a = false /\ is_word a = true /\ Ascii.eqb " " a = false.
Proof. destruct a as [[] [] [] [] [] [] [] []]; intros H; try discriminate H; repeat split; reflexivity. Qed.
Lemma digits_first d : digits d -> exists a d', d = a :: d' /\ digit a = true /\ forallb digit d' = true.
Proof. intros (NE & H). destruct d as [|a d]; [contradiction|]. cbn in H. apply andb_true_iff in H as (Ha & H). eauto. Qed.
Lemma sign_run prev sg a s c (k : cont) x : sign sg -> Ascii.eqb "-" a = false -> Ascii.eqb "+" a = false ->
  k (after prev sg) (a :: s) c = Some x -> run (opt (Alt (one "-") (one "+"))) prev (sg ++ a :: s) c k = Some x.
Proof.
  intros [ -> | [ -> | -> ]] H1 H2 K.
  - cbn [app] in *. unfold opt, one. cbn [run]. rewrite H1, H2. exact K.
  - unfold opt, one. cbn [app run]. change (Ascii.eqb "-" "-") with true. cbv iota. unfold after in K. cbn in K. now rewrite K.
  - unfold opt, one. cbn [app run]. change (Ascii.eqb "-" "+") with false. change (Ascii.eqb "+" "+") with true. cbv iota. unfold after in K. cbn in K. now rewrite K.
Qed.
Lemma fraction_head fr ex s : fraction fr -> exponent ex -> (match (fr ++ ex ++ newline :: s) with [] => True | a :: _ => digit a = false end).
Proof. intros [ -> |(d & -> & _)] HE; [|reflexivity]. destruct HE as [ -> |(e & sg & d & -> & He & _)]; [reflexivity|]. cbn. destruct He as [ -> | -> ]; reflexivity. Qed.
Lemma exponent_head ex s : exponent ex -> (match (ex ++ newline :: s) with [] => True | a :: _ => digit a = false /\ Ascii.eqb "." a = false end).
Proof. intros [ -> |(e & sg & d & -> & He & _)]; [split; reflexivity|]. cbn. destruct He as [ -> | -> ]; split; reflexivity. Qed.
Lemma exponent_run prev ex s c (k : cont) x : exponent ex -> k (after prev ex) (newline :: s) c = Some x ->
  run (opt (Seq (Alt (one "e") (one "E")) (Seq (opt (Alt (one "-") (one "+"))) (plus dig)))) prev (ex ++ newline :: s) c k = Some x.
Proof.
  intros [ -> |(e & sg & d & -> & He & Hs & Hd)] K.
  - cbn [app]. unfold opt. rewrite alt_right; [exact K|]. reflexivity.
  - unfold opt. apply alt_left. cbn [app]. rewrite run_seq, <- app_assoc.
    assert (R : run (Seq (opt (Alt (one "-") (one "+"))) (plus dig)) (Some e) (sg ++ d ++ newline :: s) c k = Some x).
    { rewrite run_seq. destruct (digits_first d Hd) as (a & d' & -> & Ha & _). destruct (digit_facts a Ha) as (F1 & F2 & _). cbn [app]. apply sign_run; auto.
      change (a :: d' ++ newline :: s) with ((a :: d') ++ newline :: s). apply plus_chr; [discriminate|apply Hd|reflexivity|]. rewrite after_cons, after_app in K. exact K. }
    destruct He as [ -> | -> ]; [apply alt_left; rewrite one_hit; exact R|rewrite alt_right by (apply one_miss; reflexivity); rewrite one_hit; exact R].
Qed.
Lemma num_run t prev s c (k : cont) x : numeral t -> k (after prev t) (newline :: s) c = Some x -> run num prev (t ++ newline :: s) c k = Some x.
Proof.
  intros (sg & d & fr & ex & -> & Hs & Hd & Hf & He) K. unfold num. rewrite run_seq, <- !app_assoc.
  destruct (digits_first d Hd) as (a & d' & Ed & Ha & _). destruct (digit_facts a Ha) as (F1 & F2 & _).
  set (E := opt (Seq (Alt (one "e") (one "E")) _)).
  assert (R : run (Seq (Alt (Seq (plus dig) (opt (Seq (one ".") (Star dig)))) (Seq (Star dig) (Seq (one ".") (plus dig)))) E) (after prev sg) (d ++ fr ++ ex ++ newline :: s) c k = Some x).
  { rewrite run_seq. apply alt_left. rewrite run_seq. apply plus_chr; [apply Hd|apply Hd|now apply fraction_head|]. destruct Hf as [ -> |(d2 & -> & Hd2)].
    - cbn [app]. unfold opt at 1. pose proof (exponent_head ex s He) as EH. rewrite alt_right.
      + change (run Eps ?p ?s ?c ?k) with (k p s c). cbv beta. apply exponent_run; [exact He|]. rewrite !after_app in K. exact K.
      + destruct (ex ++ newline :: s) as [|b l]; [reflexivity|]. destruct EH as (_ & EH). rewrite run_seq. now apply one_miss.
    - unfold opt at 1. apply alt_left. cbn [app]. rewrite run_seq, one_hit.
      apply (star_chr digit d2 (Some "."%char) (ex ++ newline :: s) c); [apply Hd2| |].
      + pose proof (exponent_head ex s He) as EH. destruct (ex ++ newline :: s); [exact I|apply EH].
      + apply exponent_run; [exact He|]. rewrite !after_app, after_cons in K. exact K. }
  rewrite Ed in R |- *. cbn [app] in R |- *. apply sign_run; auto.
Qed.
End Sound.

(** ** Searching *)
Lemma search_hit r pos prev s s' c' : run r prev s [] (fun _ s' c => Some (pos, s', c)) = Some (pos, s', c') -> search r pos prev s = Some (pos, s', c').
Proof. intros E. destruct s; cbn [search]; now rewrite E. Qed.
(** A match never starts in [l], whatever the continuation. *)
Definition never (r : re) (prev : option ascii) (s : chars) : Prop := forall A c (k : @cont A), run r prev s c k = None.
Definition skips (r : re) (prev : option ascii) (l rest : chars) : Prop := forall a b, l = a ++ b -> b <> [] -> never r (after prev a) (b ++ rest).
Lemma search_skip r l : forall pos prev rest, skips r prev l rest -> search r pos prev (l ++ rest) = search r (pos + length l) (after prev l) rest.
Proof.
  induction l as [|x l IH]; intros pos prev rest H; [cbn [app length]; now rewrite Nat.add_0_r|].
  assert (N : never r prev (x :: l ++ rest)) by (apply (H [] (x :: l)); [reflexivity|discriminate]).
  cbn [app search]. rewrite N. rewrite IH; [cbn [length]; now rewrite after_cons, Nat.add_succ_r|]. intros a b E NE. rewrite <- (after_cons prev). apply (H (x :: a) b); [now rewrite E|exact NE].
Qed.
Lemma search_none r s : forall pos prev, skips r prev s [] -> never r (after prev s) [] -> search r pos prev s = None.
Proof. intros pos prev H N. rewrite <- (app_nil_r s), search_skip by (now rewrite ?app_nil_r). cbn [search]. now rewrite N. Qed.
Lemma skips_app r prev l1 l2 rest : skips r prev l1 (l2 ++ rest) -> skips r (after prev l1) l2 rest -> skips r prev (l1 ++ l2) rest.
Proof.
  intros H1 H2 a b E NE. destruct (Nat.lt_ge_cases (length a) (length l1)) as [L|L].
  - assert (exists b1, l1 = a ++ b1 /\ b = b1 ++ l2) as (b1 & E1 & E2).
    { exists (skipn (length a) l1). rewrite <- (firstn_skipn (length a) l1) in E at 1. rewrite <- app_assoc in E.
      assert (F : firstn (length a) l1 = a). { apply (f_equal (firstn (length a))) in E. rewrite firstn_app, firstn_firstn, Nat.min_id, firstn_length, Nat.min_l in E by lia. rewrite Nat.sub_diag, firstn_O, app_nil_r, firstn_app, Nat.sub_diag, firstn_O, app_nil_r, firstn_all in E. exact E. }
      rewrite F in E. apply app_inv_head in E. split; [now rewrite <- F at 1; rewrite firstn_skipn|now symmetry]. }
    subst b. rewrite <- app_assoc. apply H1; [exact E1|]. intros C. rewrite C, app_nil_r in E1. rewrite E1 in L. lia.
  - assert (exists a2, a = l1 ++ a2 /\ l2 = a2 ++ b) as (a2 & E1 & E2).
    { exists (skipn (length l1) a). apply (f_equal (fun l => (firstn (length l1) l, skipn (length l1) l))) in E. injection E as E3 E4.
      rewrite firstn_app, Nat.sub_diag, firstn_O, app_nil_r, firstn_all, firstn_app in E3. replace (length l1 - length a)%nat with 0%nat in E3 by lia. rewrite firstn_O, app_nil_r in E3.
      rewrite skipn_app, Nat.sub_diag, skipn_all in E4. cbn [app] in E4. change (skipn 0 l2) with l2 in E4. rewrite skipn_app in E4. replace (length l1 - length a)%nat with 0%nat in E4 by lia. split; [rewrite E3 at 1; now rewrite firstn_skipn|exact E4]. }
    subst a. rewrite after_app. now apply H2.
Qed.
Lemma skips_nil r prev rest : skips r prev [] rest.
Proof. intros a b E NE. symmetry in E. apply app_eq_nil in E as (_ & ->). contradiction. Qed.
Lemma skips_one r prev x rest : never r prev (x :: rest) -> skips r prev [x] rest.
Proof. intros H a b E NE. destruct a as [|y a]; [cbn in E; subst b; exact H|]. injection E as -> E. symmetry in E. apply app_eq_nil in E as (_ & ->). contradiction. Qed.

(** ** Lines *)
Definition no_newline (l : chars) : Prop := ~ In newline l.
Lemma after_line prev l : after prev (l ++ [newline]) = Some newline.
Proof. rewrite after_app. reflexivity. Qed.
Lemma after_in prev l a : after prev l = Some a -> In a l \/ (l = [] /\ prev = Some a).
Proof. unfold after. destruct (rev l) as [|b r] eqn:E; [intros ->; right; split; [|reflexivity]; apply (f_equal (@rev ascii)) in E; rewrite rev_involutive in E; exact E|]. intros [= ->]. left. apply in_rev. rewrite E. now left. Qed.
(** Expressions that start with ^: only the start of a line counts. *)
Lemma bol_skips r prev l rest : no_newline l -> (prev = None \/ prev = Some newline) -> never r prev (l ++ newline :: rest) -> skips (Seq Bol r) prev (l ++ [newline]) rest.
Proof.
  intros NN HP N a b E NE A c k. destruct a as [|x a].
  - cbn [after rev app] in *. subst b. rewrite <- app_assoc. cbn [app run]. destruct HP as [ -> | -> ]; [apply N|]. rewrite Ascii.eqb_refl. apply N.
  - rewrite run_seq. cbn [run]. destruct (after prev (x :: a)) as [y|] eqn:EA.
    + assert (Iy : In y l).
      { apply after_in in EA as [I|(C & _)]; [|discriminate]. assert (exists b', b = b' ++ [newline]) as (b' & ->).
        { destruct (exists_last NE) as (b' & z & ->). exists b'. rewrite app_assoc in E. apply app_inj_tail in E as (_ & ->). reflexivity. }
        rewrite app_assoc in E. apply app_inj_tail in E as (-> & _). apply in_or_app. now left. }
      destruct (Ascii.eqb_spec y newline) as [->|]; [contradiction|reflexivity].
    + exfalso. unfold after in EA. destruct (rev (x :: a)) eqn:R; [|discriminate]. apply (f_equal (@rev ascii)) in R. rewrite rev_involutive in R. discriminate.
Qed.

(** ** key = number *)
Definition norm (ci : bool) (u : chars) : chars := if ci then map lower u else u.
Definition word_re (ci : bool) (w : chars) : re := if ci then lit_i w else lit w.
Definition keys_re (ci : bool) (ws : list chars) : re := key_re (alts (map (word_re ci) ws)).
Lemma lang_lit w : forall u, lang (lit w) u -> u = w.
Proof. induction w as [|a w IH]; intros u H; [exact H|]. destruct H as (v & v' & -> & (b & -> & Hb) & H). apply IH in H as ->. apply Ascii.eqb_eq in Hb as ->. reflexivity. Qed.
Lemma lang_lit_i w : forall u, lang (lit_i w) u -> map lower u = map lower w.
Proof. induction w as [|a w IH]; intros u H; [cbn in H; now subst u|]. destruct H as (v & v' & -> & (b & -> & Hb) & H). apply IH in H. apply Ascii.eqb_eq in Hb. cbn. now rewrite H, Hb. Qed.
Lemma lang_word ci w u : lang (word_re ci w) u -> norm ci u = norm ci w.
Proof. destruct ci; [apply lang_lit_i|apply lang_lit]. Qed.
Lemma lang_alts rs u : lang (alts rs) u -> exists r, In r rs /\ lang r u.
Proof.
  induction rs as [|r rs IH]; [intros (a & _ & H); discriminate|]. destruct rs as [|r' rs]; [intros H; exists r; cbn; auto|].
  intros [H|H]; [exists r; cbn; auto|]. destruct (IH H) as (r0 & I & L). exists r0. split; [now right|exact L].
Qed.
Lemma lang_star_one p u : lang_star (fun u => exists a, u = [a] /\ p a = true) u -> forallb p u = true.
Proof. induction 1 as [|u v (a & -> & H) _ IH]; [reflexivity|]. cbn. now rewrite H, IH. Qed.

(** Where a match can start: before a key and spaces that end in front of "=", at the start of a word *)
Lemma key_shape ci ws prev s A c (k : @cont A) x : run (keys_re ci ws) prev s c k = Some x ->
  xorb (word_at prev) (word_at (hd_error s)) = true /\
  exists kx sp t w, s = kx ++ sp ++ "="%char :: t /\ In w ws /\ norm ci kx = norm ci w /\ forallb (Ascii.eqb " ") sp = true.
Proof.
  unfold keys_re, key_re. rewrite run_seq. intros E. change (run Bnd ?p ?s ?c ?k) with (if xorb (word_at p) (word_at (hd_error s)) then k p s c else None) in E.
  destruct (xorb _ _) eqn:X; [|discriminate]. split; [reflexivity|]. cbv beta in E. rewrite run_seq in E.
  apply run_sound in E as (kx & p1 & s1 & c1 & -> & L1 & E). apply lang_alts in L1 as (r & I & L1). apply in_map_iff in I as (w & <- & Iw). apply lang_word in L1.
  rewrite run_seq in E. apply run_sound in E as (sp & p2 & s2 & c2 & -> & L2 & E). cbn in L2. apply lang_star_one in L2.
  rewrite run_seq in E. destruct s2 as [|b s2]; [discriminate|]. destruct (Ascii.eqb "=" b) eqn:EB; [|rewrite one_miss in E by exact EB; discriminate].
  apply Ascii.eqb_eq in EB as <-. exists kx, sp, s2, w. auto.
Qed.

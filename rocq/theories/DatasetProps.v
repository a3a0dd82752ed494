(** Properties of PDFDataSet: reading (C55), copies (C56), PdfFit variables (C67). *)
From Coq Require Import Reals String Ascii Lra.
From Verif Require Import Prelude Evaluators EvaluatorsProps ResampleProps Dataset.
Open Scope string_scope.

(** ** What a user sees of one data set *)
Record view := mkView {
  v_name : string; v_robs : list fl; v_Gobs : list fl; v_drobs : list fl; v_dGobs : list fl;
  v_stype : string; v_qmax : fl; v_qdamp : fl; v_qbroad : fl; v_spdiameter : option fl; v_dscale : fl;
  v_rmin : option fl; v_rmax : option fl; v_filename : option string; v_meta : list (string * fl) }.
Definition see_ds (st : state) (d : ds) : view :=
  mkView (d_name d) (get_list st (d_robs d)) (get_list st (d_Gobs d)) (get_list st (d_drobs d)) (get_list st (d_dGobs d))
    (d_stype d) (d_qmax d) (d_qdamp d) (d_qbroad d) (d_spdiameter d) (d_dscale d)
    (d_rmin d) (d_rmax d) (d_filename d) (get_dict st (d_meta d)).
Definition see (st : state) (i : nat) : option view := option_map (see_ds st) (nth_error (objs st) i).

(** ** C55: reading *)
(** Every line has a word at position [c] which is accepted, and [l] are the parsed values. *)
Definition column_ok (parse : string -> option fl) (c : nat) (lines : list (list string)) (l : list fl) : Prop :=
  List.length l = List.length lines /\
  forall k ws, nth_error lines k = Some ws ->
    exists w x, nth_error ws c = Some w /\ parse w = Some x /\ nth_error l k = Some x /\
                inf_or_nan w = false /\ (x = PInf \/ exists r, x = Fin r /\ (0 < r)%R).
(** The plain columns. *)
Definition column_is (parse : string -> option fl) (c : nat) (lines : list (list string)) (l : list fl) : Prop :=
  List.length l = List.length lines /\
  forall k ws, nth_error lines k = Some ws ->
    exists w x, nth_error ws c = Some w /\ parse w = Some x /\ nth_error l k = Some x.

Lemma fl_pos_spec x : fl_pos x = true <-> (x = PInf \/ exists r, x = Fin r /\ (0 < r)%R).
Proof.
  destruct x; cbn [fl_pos].
  - rewrite Rltb_spec. split; [intros; right; eauto|]. intros [H|(s & [= ->] & H)]; [discriminate|exact H].
  - split; auto.
  - split; [discriminate|]. intros [H|(s & H & _)]; discriminate.
  - split; [discriminate|]. intros [H|(s & H & _)]; discriminate.
Qed.

Lemma nth_app_snoc {A} (l : list A) a k x :
  nth_error (l ++ [a])%list k = Some x -> (nth_error l k = Some x /\ (k < List.length l)%nat) \/ (k = List.length l /\ x = a).
Proof.
  intros H. destruct (Nat.lt_ge_cases k (List.length l)).
  - left. rewrite nth_error_app1 in H by assumption. auto.
  - right. rewrite nth_error_app2 in H by assumption. destruct (k - List.length l)%nat as [|m] eqn:E; [|destruct m; discriminate]. injection H as ->. split; [lia|reflexivity].
Qed.
Lemma column_is_snoc parse c ls l v w x :
  column_is parse c ls l -> nth_error v c = Some w -> parse w = Some x -> column_is parse c (ls ++ [v])%list (l ++ [x])%list.
Proof.
  intros [L H] E P. split; [rewrite !app_length; cbn; lia|].
  intros k ws K. apply nth_app_snoc in K as [[K KL]|[-> ->]].
  - destruct (H k ws K) as (w' & x' & A & B & C). exists w', x'. repeat split; auto. rewrite nth_error_app1; [exact C|lia].
  - exists w, x. repeat split; auto. rewrite nth_error_app2 by lia. rewrite L, Nat.sub_diag. reflexivity.
Qed.
Lemma column_ok_snoc parse c ls l v w x :
  column_ok parse c ls l -> nth_error v c = Some w -> parse w = Some x -> inf_or_nan w = false -> fl_pos x = true ->
  column_ok parse c (ls ++ [v])%list (l ++ [x])%list.
Proof.
  intros [L H] E P I F. split; [rewrite !app_length; cbn; lia|].
  intros k ws K. apply nth_app_snoc in K as [[K KL]|[-> ->]].
  - destruct (H k ws K) as (w' & x' & A & B & C & D). exists w', x'. repeat split; try tauto. rewrite nth_error_app1; [exact C|lia].
  - exists w, x. repeat split; auto. { rewrite nth_error_app2 by lia. rewrite L, Nat.sub_diag. reflexivity. } now apply fl_pos_spec.
Qed.
Lemma column_ok_prefix parse c ls v l : column_ok parse c (ls ++ [v])%list l -> exists l', column_ok parse c ls l'.
Proof.
  intros [L H]. exists (firstn (List.length ls) l). split; [rewrite firstn_length; rewrite app_length in L; cbn in L; lia|].
  intros k ws K. assert (KL : (k < List.length ls)%nat) by (apply nth_error_Some; congruence).
  destruct (H k ws) as (w & x & A & B & C & D); [rewrite nth_error_app1; assumption|].
  exists w, x. repeat split; try tauto.
  rewrite <- C. rewrite <- (firstn_skipn (List.length ls) l) at 2. rewrite nth_error_app1; [reflexivity|]. rewrite firstn_length. rewrite app_length in L. cbn in L. lia.
Qed.
(** state of one uncertainty column after some lines *)
Definition col_inv parse c ls (has : bool) (l : list fl) : Prop :=
  if has then column_ok parse c ls l else ~ exists l', column_ok parse c ls l'.
Lemma column_step parse c ls has l v has' l' :
  col_inv parse c ls has l -> column parse c v has l = Ok (has', l') -> col_inv parse c (ls ++ [v])%list has' l'.
Proof.
  intros I. unfold column. destruct (nth_error v c) as [w|] eqn:E.
  - destruct has; cbn [andb].
    + destruct (inf_or_nan w) eqn:N; cbn [negb].
      * intros [= <- <-]. cbn. intros (l' & [L H]). destruct (H (List.length ls) v) as (w' & x' & A & B & C & D & _).
        { rewrite nth_error_app2, Nat.sub_diag by lia. reflexivity. } congruence.
      * unfold float. destruct (parse w) as [x|] eqn:P; cbn [bind]; [|discriminate]. intros [= <- <-].
        destruct (fl_pos x) eqn:F; cbn.
        { eapply column_ok_snoc; eauto. }
        intros (l' & [L H]). destruct (H (List.length ls) v) as (w' & x' & A & B & C & D & D').
        { rewrite nth_error_app2, Nat.sub_diag by lia. reflexivity. }
        assert (x' = x) as -> by congruence. apply fl_pos_spec in D'. congruence.
    + intros [= <- <-]. cbn. intros (l' & H). apply column_ok_prefix in H. exact (I H).
  - intros [= <- <-]. cbn. intros (l' & [L H]). destruct (H (List.length ls) v) as (w' & x' & A & _).
    { rewrite nth_error_app2, Nat.sub_diag by lia. reflexivity. } congruence.
Qed.
Definition obs_inv parse ls (o : obs) : Prop :=
  column_is parse 0 ls (o_r o) /\ column_is parse 1 ls (o_G o) /\
  col_inv parse 2 ls (has_dr o) (o_dr o) /\ col_inv parse 3 ls (has_dG o) (o_dG o).
Lemma pyget_word (parse : string -> option fl) v c x : (do s <- pyget v (Z.of_nat c); float parse s) = Ok x -> exists w, nth_error v c = Some w /\ parse w = Some x.
Proof.
  destruct (nth_error v c) as [w|] eqn:E.
  - rewrite (pyget_ok _ _ _ E). cbn [bind]. unfold float. destruct (parse w) eqn:P; [|discriminate]. intros [= <-]. eauto.
  - rewrite pyget_none; [discriminate|]. now apply nth_error_None.
Qed.
Lemma read_line_inv parse ls o v o' :
  obs_inv parse ls o -> read_line parse o v = (o', Ok tt) -> obs_inv parse (ls ++ [v])%list o'.
Proof.
  intros (I0 & I1 & I2 & I3). unfold read_line.
  change 0%Z with (Z.of_nat 0). change 1%Z with (Z.of_nat 1).
  destruct (do s <- pyget v (Z.of_nat 0); float parse s) as [x|] eqn:E0; [|discriminate].
  destruct (do s <- pyget v (Z.of_nat 1); float parse s) as [y|] eqn:E1; [|discriminate].
  destruct (column parse 2 v (has_dr o) (o_dr o)) as [[h l]|] eqn:E2; [|discriminate].
  destruct (column parse 3 v (has_dG o) (o_dG o)) as [[h' l']|] eqn:E3; [|discriminate].
  intros [= <-]. apply pyget_word in E0 as (w0 & A0 & B0), E1 as (w1 & A1 & B1).
  split; [|split; [|split]]; cbn [o_r o_G o_dr o_dG has_dr has_dG].
  - eapply column_is_snoc; eauto.
  - eapply column_is_snoc; eauto.
  - eapply column_step; eauto.
  - eapply column_step; eauto.
Qed.
Lemma read_lines_inv parse todo : forall ls o o',
  obs_inv parse ls o -> read_lines parse o todo = (o', Ok tt) -> obs_inv parse (ls ++ todo)%list o'.
Proof.
  induction todo as [|v r IH]; cbn [read_lines]; intros ls o o' I H.
  - injection H as <-. now rewrite app_nil_r.
  - destruct (read_line parse o v) as [o1 [[]|]] eqn:E; [|discriminate].
    replace (ls ++ v :: r)%list with ((ls ++ [v]) ++ r)%list by (rewrite <- app_assoc; reflexivity).
    eapply IH; eauto. eapply read_line_inv; eauto.
Qed.
Lemma obs_inv_nil parse : obs_inv parse [] (mkObs [] [] [] [] true true).
Proof. split; [|split; [|split]]; cbn; (split; [reflexivity|intros [|k] ws; discriminate]). Qed.

Lemma upd_same {A} (l : list A) i a : (i < List.length l)%nat -> nth_error (upd l i a) i = Some a.
Proof. revert i. induction l as [|b l IH]; intros [|i] H; cbn in *; try lia; auto. apply IH. lia. Qed.
Lemma upd_diff {A} (l : list A) i j a : i <> j -> nth_error (upd l i a) j = nth_error l j.
Proof. revert i j. induction l as [|b l IH]; intros [|i] [|j] H; cbn; auto; try congruence. Qed.
Lemma upd_len {A} (l : list A) i a : List.length (upd l i a) = List.length l.
Proof. revert i. induction l as [|b l IH]; intros [|i]; cbn; auto. Qed.
Lemma nth_fresh {A} (l : list (list A)) a b c d :
  nth (List.length l) (l ++ [a; b; c; d]) [] = a /\ nth (List.length l + 1) (l ++ [a; b; c; d]) [] = b /\
  nth (List.length l + 2) (l ++ [a; b; c; d]) [] = c /\ nth (List.length l + 3) (l ++ [a; b; c; d]) [] = d.
Proof.
  rewrite !app_nth2 by lia. rewrite Nat.sub_diag. replace (List.length l + 1 - List.length l)%nat with 1%nat by lia.
  replace (List.length l + 2 - List.length l)%nat with 2%nat by lia. replace (List.length l + 3 - List.length l)%nat with 3%nat by lia. auto.
Qed.

(** On success: the four lists have one value per line, the first two are the parsed words,
    each uncertainty list is the parsed column if every word of it is acceptable and all
    zeros otherwise; rmin and rmax are the first and the last r. *)
Definition uncertainty_spec parse c lines (l : list fl) : Prop :=
  column_ok parse c lines l \/
  (l = repeat (Fin 0) (List.length lines) /\ ~ exists l', column_ok parse c lines l').
Theorem C55_success :
  forall parse st i t st',
    readstr parse st i t = (st', Ok tt) ->
    exists v, see st' i = Some v /\ t_lines t <> [] /\
      column_is parse 0 (t_lines t) (v_robs v) /\ column_is parse 1 (t_lines t) (v_Gobs v) /\
      uncertainty_spec parse 2 (t_lines t) (v_drobs v) /\ uncertainty_spec parse 3 (t_lines t) (v_dGobs v) /\
      v_rmin v = nth_error (v_robs v) 0 /\ v_rmax v = nth_error (v_robs v) (List.length (v_robs v) - 1) /\
      v_rmin v <> None /\ v_rmax v <> None.
Proof.
  intros parse st i t st'. unfold readstr.
  destruct (nth_error (objs st) i) as [d0|] eqn:D; [|discriminate].
  destruct (read_lines parse (mkObs [] [] [] [] true true) (t_lines t)) as [o r] eqn:R.
  destruct r as [[]|e]; [|discriminate].
  pose proof (read_lines_inv parse (t_lines t) [] _ _ (obs_inv_nil parse) R) as (I0 & I1 & I2 & I3). cbn [List.app] in I0, I1, I2, I3.
  set (f := finish o). assert (RF : o_r f = o_r o) by reflexivity.
  destruct (pyget (o_r f) 0) as [a|] eqn:PA; [|discriminate].
  destruct (pyget (o_r f) (-1)) as [b|] eqn:PB; [|discriminate].
  intros [= <-].
  assert (IL : (i < List.length (objs st))%nat) by (apply nth_error_Some; congruence).
  unfold see, set_obj, alloc. cbn [objs lists dicts].
  rewrite upd_same by exact IL. cbn [option_map]. eexists. split; [reflexivity|].
  unfold see_ds, get_list. cbn [lists v_robs v_Gobs v_drobs v_dGobs v_rmin v_rmax d_robs d_Gobs d_drobs d_dGobs d_rmin d_rmax].
  destruct (nth_fresh (lists st) (o_r f) (o_G f) (o_dr f) (o_dG f)) as (X0 & X1 & X2 & X3). cbn [f finish o_r o_G o_dr o_dG] in X0, X1, X2, X3.
  rewrite X0, X1, X2, X3. clear X0 X1 X2 X3.
  assert (NE : o_r o <> []) by (rewrite <- RF; intros N; rewrite N in PA; discriminate).
  assert (LR : List.length (o_r o) = List.length (t_lines t)) by apply I0.
  assert (U : forall c h l, col_inv parse c (t_lines t) h l -> uncertainty_spec parse c (t_lines t) (if h then l else zeros o)).
  { intros c h l H. destruct h; cbn in H; [left; exact H|]. right. unfold zeros. rewrite LR. auto. }
  split; [intros N; rewrite N in LR; destruct (o_r o); [contradiction|discriminate]|].
  split; [exact I0|]. split; [exact I1|].
  split; [apply (U 2%nat _ _ I2)|]. split; [apply (U 3%nat _ _ I3)|].
  destruct (o_r f) as [|r0 rr] eqn:F; [rewrite <- RF in NE; congruence|].
  assert (Some b = nth_error (r0 :: rr) (List.length (r0 :: rr) - 1)).
  { destruct (nth_error (r0 :: rr) (List.length (r0 :: rr) - 1)) as [z|] eqn:Z; [|apply nth_error_None in Z; cbn in Z; lia].
    rewrite (pyget_last _ _ Z) in PB. congruence. }
  rewrite <- RF. split; [cbn in PA; injection PA as ->; reflexivity|]. split; [exact H|]. split; discriminate.
Qed.

(** When reading succeeds and when it does not. *)
Lemma read_lines_err parse todo : forall o o' e,
  read_lines parse o todo = (o', Err e) -> e = ValueError \/ e = IndexError.
Proof.
  induction todo as [|v r IH]; cbn [read_lines]; intros o o' e H; [discriminate|].
  destruct (read_line parse o v) as [o1 [[]|e']] eqn:E; [eauto|]. injection H as <- <-. unfold read_line in E.
  assert (PG : forall (z : Z) e0, (do s <- pyget v z; float parse s) = Err e0 -> e0 = ValueError \/ e0 = IndexError).
  { intros z e0. unfold pyget. destruct (_ || _); [intros [= <-]; auto|]. destruct (nth_error v _); [|intros [= <-]; auto]. cbn [bind]. unfold float. destruct (parse s); [discriminate|]. intros [= <-]; auto. }
  assert (CG : forall c h l e0, column parse c v h l = Err e0 -> e0 = ValueError \/ e0 = IndexError).
  { intros c h l e0. unfold column. destruct (nth_error v c); [|discriminate]. destruct (_ && _); [|discriminate]. unfold float. destruct (parse s); [discriminate|]. intros [= <-]; auto. }
  destruct (do s <- pyget v 0; float parse s) eqn:E0; [|injection E as <- <-; eapply PG; eauto].
  destruct (do s <- pyget v 1; float parse s) eqn:E1; [|injection E as <- <-; eapply PG; eauto].
  destruct (column parse 2 v (has_dr o) (o_dr o)) as [[]|] eqn:E2; [|injection E as <- <-; eapply CG; eauto].
  destruct (column parse 3 v (has_dG o) (o_dG o)) as [[]|] eqn:E3; [discriminate|injection E as <- <-; eapply CG; eauto].
Qed.
Lemma read_lines_ok parse todo : forall o,
  (forall ws, In ws todo -> (2 <= List.length ws)%nat /\ forall w, In w ws -> parse w <> None) ->
  exists o', read_lines parse o todo = (o', Ok tt).
Proof.
  induction todo as [|v r IH]; cbn [read_lines]; intros o H; [eauto|].
  assert (exists o1, read_line parse o v = (o1, Ok tt)) as (o1 & ->); [|apply IH; intros; apply H; now right].
  destruct (H v (or_introl eq_refl)) as [L P]. unfold read_line.
  assert (F : forall c w, nth_error v c = Some w -> exists x, parse w = Some x).
  { intros c w E. apply nth_error_In in E. specialize (P w E). destruct (parse w); [eauto|congruence]. }
  destruct v as [|w0 [|w1 v]]; cbn [List.length] in L; try lia.
  destruct (F 0%nat w0 eq_refl) as [x X], (F 1%nat w1 eq_refl) as [y Y].
  change 0%Z with (Z.of_nat 0). rewrite (pyget_ok _ _ w0) by reflexivity. cbn [bind]. unfold float at 1. rewrite X.
  change 1%Z with (Z.of_nat 1). rewrite (pyget_ok _ _ w1) by reflexivity. cbn [bind]. unfold float at 1. rewrite Y.
  assert (C : forall c h l, exists p, column parse c (w0 :: w1 :: v) h l = Ok p).
  { intros c h l. unfold column. destruct (nth_error (w0 :: w1 :: v) c) as [w|] eqn:E; [|eauto]. destruct (_ && _); [|eauto].
    destruct (F c w E) as [z Z]. unfold float. rewrite Z. cbn [bind]. eauto. }
  destruct (C 2%nat (has_dr o) (o_dr o)) as [[h l] ->]. destruct (C 3%nat (has_dG o) (o_dG o)) as [[h' l'] ->]. eauto.
Qed.
(** Reading a body of at least one line never ends otherwise than in success or in the
    documented format error; it succeeds if every word of every line is a number and
    every line has two, and it fails if some line does not start with two numbers. *)
Theorem C55_outcome :
  forall parse st i t, (i < List.length (objs st))%nat -> t_lines t <> [] ->
    let r := snd (readstr parse st i t) in
    (r = Ok tt \/ r = Err DataFormatError) /\
    ((forall ws, In ws (t_lines t) -> (2 <= List.length ws)%nat /\ forall w, In w ws -> parse w <> None) -> r = Ok tt) /\
    ((exists ws c, In ws (t_lines t) /\ (c < 2)%nat /\ forall w, nth_error ws c = Some w -> parse w = None) -> r = Err DataFormatError).
Proof.
  intros parse st i t IL NE r.
  assert (A : r = Ok tt \/ r = Err DataFormatError).
  { unfold r, readstr. destruct (nth_error (objs st) i) as [d0|] eqn:D; [|apply nth_error_None in D; lia].
    destruct (read_lines parse (mkObs [] [] [] [] true true) (t_lines t)) as [o [[]|e]] eqn:R; [|right; reflexivity].
    pose proof (read_lines_inv parse (t_lines t) [] _ _ (obs_inv_nil parse) R) as ([L _] & _). cbn [List.app] in L.
    destruct (o_r (finish o)) as [|r0 rr] eqn:F; [change (o_r (finish o)) with (o_r o) in F; rewrite F in L; destruct (t_lines t); [contradiction|discriminate]|].
    destruct (nth_error (r0 :: rr) (List.length (r0 :: rr) - 1)) as [z|] eqn:Z; [|apply nth_error_None in Z; cbn in Z; lia].
    rewrite (pyget_last _ _ Z). left. reflexivity. }
  split; [exact A|]. split.
  - intros H. destruct A as [A|A]; [exact A|]. exfalso. unfold r, readstr in A.
    destruct (nth_error (objs st) i) as [d0|] eqn:D; [|apply nth_error_None in D; lia].
    destruct (read_lines_ok parse (t_lines t) (mkObs [] [] [] [] true true) H) as (o & R). rewrite R in A.
    destruct (pyget (o_r (finish o)) 0); [|discriminate]. destruct (pyget (o_r (finish o)) (-1)); discriminate.
  - intros (ws & c & IN & C & N). destruct A as [A|A]; [|exact A]. exfalso.
    destruct (readstr parse st i t) as [st' r'] eqn:E. unfold r in A. cbn [snd] in A. subst r'.
    destruct (C55_success _ _ _ _ _ E) as (v & _ & _ & I0 & I1 & _).
    apply In_nth_error in IN as (k & K). destruct c as [|[|c]]; [| |lia].
    + destruct I0 as [_ I0]. destruct (I0 k ws K) as (w & x & W & P & _). specialize (N w W). congruence.
    + destruct I1 as [_ I1]. destruct (I1 k ws K) as (w & x & W & P & _). specialize (N w W). congruence.
Qed.
(** "Finite": if the only words read as infinity are those the pattern rejects, the accepted
    uncertainties are positive reals.  Python also reads "Infinity", which the pattern lets
    through. *)
Theorem C112_finite :
  forall parse c lines l,
    (forall w, parse w = Some PInf -> inf_or_nan w = true) ->
    uncertainty_spec parse c lines l ->
    Forall (fun x => exists r, x = Fin r /\ (0 < r)%R) l \/ l = repeat (Fin 0) (List.length lines).
Proof.
  intros parse c lines l H [[L U]|[-> _]]; [left|right; reflexivity].
  apply Forall_forall. intros x IN. apply In_nth_error in IN as (k & K).
  assert (k < List.length lines)%nat by (rewrite <- L; apply nth_error_Some; congruence).
  destruct (nth_error lines k) as [ws|] eqn:W; [|apply nth_error_None in W; lia].
  destruct (U k ws W) as (w & x' & A & B & C & D & [->|E]); [apply H in B; congruence|]. assert (x = x') as -> by congruence. exact E.
Qed.
Theorem C89_infinity_refuted :
  forall parse st i, (i < List.length (objs st))%nat ->
    parse "1" = Some (Fin 1) -> parse "Infinity" = Some PInf ->
    exists st' v, readstr parse st i (mkText (mkHeader None None None None None None []) [["1"; "1"; "1"; "Infinity"]]) = (st', Ok tt) /\
      see st' i = Some v /\ v_dGobs v = [PInf].
Proof.
  intros parse st i IL P1 PI.
  set (t := mkText _ _). destruct (C55_outcome parse st i t IL) as (_ & S & _); [discriminate|].
  destruct (readstr parse st i t) as [st' r] eqn:E. cbn [snd] in S. rewrite S in E.
  - destruct (C55_success _ _ _ _ _ E) as (v & V & _ & _ & _ & _ & U & _). exists st', v. rewrite S.
    + split; [reflexivity|]. split; [exact V|]. destruct U as [[L U]|[_ N]].
      * destruct (U 0%nat _ eq_refl) as (w & x & A & B & C & _). injection A as <-. rewrite PI in B. injection B as <-.
        destruct (v_dGobs v) as [|z [|? ?]]; cbn in L; try discriminate. cbn in C. congruence.
      * exfalso. apply N. exists [PInf]. split; [reflexivity|]. intros [|k] ws K; [|destruct k; discriminate]. injection K as <-.
        exists "Infinity", PInf. repeat split; auto.
    + intros ws [<-|[]]. split; [cbn; lia|]. intros w [<-|[<-|[<-|[<-|[]]]]]; congruence.
  - intros ws [<-|[]]. split; [cbn; lia|]. intros w [<-|[<-|[<-|[<-|[]]]]]; congruence.
Qed.
(** A failed read has already erased what the data set held. *)
Theorem C89_failed_read_keeps_data_refuted :
  forall parse st i d, nth_error (objs st) i = Some d ->
    exists st' v, readstr parse st i (mkText (mkHeader None None None None None None []) [[]]) = (st', Err DataFormatError) /\
      see st' i = Some v /\ v_robs v = [] /\ v_Gobs v = [] /\ v_rmin v = None.
Proof.
  intros parse st i d D. assert (IL : (i < List.length (objs st))%nat) by (apply nth_error_Some; congruence).
  unfold readstr. rewrite D. cbn [t_lines read_lines]. unfold read_line. change (pyget (@nil string) 0) with (@Err string IndexError). cbn [bind].
  eexists _, _. split; [reflexivity|]. unfold see, set_obj, alloc. cbn [objs lists dicts]. rewrite upd_same by exact IL. cbn [option_map].
  split; [reflexivity|]. unfold see_ds, get_list. cbn [lists v_robs v_Gobs v_rmin d_robs d_Gobs d_rmin o_r o_G o_dr o_dG].
  destruct (nth_fresh (lists st) (@nil fl) [] [] []) as (-> & -> & _). auto.
Qed.

(** ** C56: copies *)
Definition refs (d : ds) : list nat := [d_robs d; d_Gobs d; d_drobs d; d_dGobs d].
Definition wf (st : state) : Prop :=
  (forall i d, nth_error (objs st) i = Some d ->
     (forall a, In a (refs d) -> (a < List.length (lists st))%nat) /\ (d_meta d < List.length (dicts st))%nat) /\
  (forall i j d e, nth_error (objs st) i = Some d -> nth_error (objs st) j = Some e -> d_meta d = d_meta e -> i = j).

Lemma see_ext st st' d :
  (forall a, In a (refs d) -> get_list st' a = get_list st a) -> get_dict st' (d_meta d) = get_dict st (d_meta d) ->
  see_ds st' d = see_ds st d.
Proof. intros H M. unfold see_ds. rewrite M, !H by (cbn; tauto). reflexivity. Qed.

(** A step which allocates, and replaces or adds one object. *)
Definition grows (st st' : state) : Prop :=
  (exists l, lists st' = (lists st ++ l)%list) /\ (exists m, dicts st' = (dicts st ++ m)%list).
Lemma grows_see st st' j d : wf st -> grows st st' -> nth_error (objs st) j = Some d -> nth_error (objs st') j = Some d -> see st' j = see st j.
Proof.
  intros [W _] [[l L] [m M]] D D'. unfold see. rewrite D, D'. cbn [option_map]. f_equal. destruct (W j d D) as [A B].
  apply see_ext; [intros a IN; unfold get_list; rewrite L; apply app_nth1; auto|].
  unfold get_dict. rewrite M. apply app_nth1; auto.
Qed.
Definition ok_ds (st : state) (d : ds) : Prop :=
  (forall a, In a (refs d) -> (a < List.length (lists st))%nat) /\ (d_meta d < List.length (dicts st))%nat.
Lemma wf_set st st' i d :
  wf st -> grows st st' -> objs st' = upd (objs st) i d -> ok_ds st' d ->
  (List.length (dicts st) <= d_meta d \/ exists d0, nth_error (objs st) i = Some d0 /\ d_meta d0 = d_meta d)%nat -> wf st'.
Proof.
  intros [W U] [[l L] [m M]] O OK F.
  assert (K : forall j e, nth_error (objs st') j = Some e -> (j = i /\ e = d) \/ (j <> i /\ nth_error (objs st) j = Some e)).
  { intros j e E. rewrite O in E. destruct (Nat.eq_dec i j) as [->|N].
    - left. split; [reflexivity|]. rewrite upd_same in E; [congruence|]. rewrite <- (upd_len (objs st) j d). apply nth_error_Some. congruence.
    - right. rewrite upd_diff in E by exact N. split; [congruence|exact E]. }
  split.
  - intros j e E. destruct (K j e E) as [[-> ->]|[_ E']]; [exact OK|]. destruct (W j e E') as [A B].
    split; [intros a IN; specialize (A a IN)|]; rewrite ?L, ?M, app_length; lia.
  - intros j k e f E1 E2 EQ. destruct (K j e E1) as [[-> ->]|[N1 E1']], (K k f E2) as [[-> ->]|[N2 E2']]; auto.
    + exfalso. destruct (W k f E2') as [_ B]. destruct F as [F|(d0 & D0 & F)]; [lia|]. apply N2. apply (U k i f d0); auto. congruence.
    + exfalso. destruct (W j e E1') as [_ B]. destruct F as [F|(d0 & D0 & F)]; [lia|]. apply N1. apply (U j i e d0); auto. congruence.
    + apply (U j k e f); auto.
Qed.
Lemma wf_add st st' d :
  wf st -> grows st st' -> objs st' = (objs st ++ [d])%list -> ok_ds st' d -> (List.length (dicts st) <= d_meta d)%nat -> wf st'.
Proof.
  intros [W U] [[l L] [m M]] O OK F.
  assert (K : forall j e, nth_error (objs st') j = Some e -> (j = List.length (objs st) /\ e = d) \/ (nth_error (objs st) j = Some e)).
  { intros j e E. rewrite O in E. apply nth_app_snoc in E as [[E _]|[-> ->]]; auto. }
  split.
  - intros j e E. destruct (K j e E) as [[-> ->]|E']; [exact OK|]. destruct (W j e E') as [A B].
    split; [intros a IN; specialize (A a IN)|]; rewrite ?L, ?M, app_length; lia.
  - intros j k e f E1 E2 EQ. destruct (K j e E1) as [[-> ->]|E1'], (K k f E2) as [[-> ->]|E2']; auto.
    + exfalso. destruct (W k f E2') as [_ B]. lia.
    + exfalso. destruct (W j e E1') as [_ B]. lia.
    + apply (U j k e f); auto.
Qed.
Lemma grows_refl st : grows st st.
Proof. split; [exists []|exists []]; now rewrite app_nil_r. Qed.
Lemma grows_trans a b c : grows a b -> grows b c -> grows a c.
Proof. intros [[l L] [m M]] [[l' L'] [m' M']]. split; [exists (l ++ l')%list|exists (m ++ m')%list]; rewrite ?L', ?M', ?L, ?M, app_assoc; reflexivity. Qed.
Lemma fresh_ok st st' n name :
  (exists a b c d, lists st' = (lists st ++ [a; b; c; d])%list) -> (exists m, dicts st' = (dicts st ++ [m])%list) -> n = List.length (lists st) ->
  ok_ds st' (fresh_ds st name n (List.length (dicts st))).
Proof.
  intros (a & b & c & d & L) (m & M) ->. split; [|rewrite M, app_length; cbn; lia].
  intros x. rewrite L, app_length. cbn [refs fresh_ds d_robs d_Gobs d_drobs d_dGobs In List.length]. lia.
Qed.

(** What each call does to the store *)
Lemma clear_cases st i : wf st ->
  wf (clear st i) /\ grows st (clear st i) /\ (forall j, j <> i -> nth_error (objs (clear st i)) j = nth_error (objs st) j) /\ List.length (objs (clear st i)) = List.length (objs st).
Proof.
  intros W. unfold clear. destruct (nth_error (objs st) i) as [d|] eqn:D; [|split; [exact W|split; [apply grows_refl|auto]]].
  assert (G : grows st (set_obj (alloc st [[]; []; []; []] []) i (fresh_ds st (d_name d) (List.length (lists st)) (List.length (dicts st))))) by (split; eexists; reflexivity).
  split.
  - eapply wf_set; [exact W|exact G|reflexivity| |left; cbn; lia].
    apply fresh_ok; [do 4 eexists; reflexivity|eexists; reflexivity|reflexivity].
  - split; [exact G|]. split; [intros j J; cbn [set_obj objs alloc]; apply upd_diff; congruence|]. cbn [set_obj objs alloc]. apply upd_len.
Qed.
Lemma create_cases st n : wf st ->
  wf (create st n) /\ grows st (create st n) /\ (forall j, (j < List.length (objs st))%nat -> nth_error (objs (create st n)) j = nth_error (objs st) j) /\
  nth_error (objs (create st n)) (List.length (objs st)) = Some (fresh_ds st n (List.length (lists st)) (List.length (dicts st))).
Proof.
  intros W. unfold create. assert (G : grows st (create st n)) by (split; eexists; reflexivity).
  split.
  - eapply wf_add; [exact W|exact G|reflexivity| |cbn; lia].
    apply fresh_ok; [do 4 eexists; reflexivity|eexists; reflexivity|reflexivity].
  - split; [exact G|]. cbn [objs]. split; [intros j J; now apply nth_error_app1|]. rewrite nth_error_app2, Nat.sub_diag by lia. reflexivity.
Qed.
Lemma setvar_cases parse st i a b : wf st ->
  let st' := fst (setvar parse st i a b) in
  wf st' /\ grows st st' /\ (forall j, j <> i -> nth_error (objs st') j = nth_error (objs st) j).
Proof.
  intros W. unfold setvar. destruct (nth_error (objs st) i) as [d|] eqn:D; [|split; [exact W|split; [apply grows_refl|auto]]].
  destruct (parse b) as [v|]; [|split; [exact W|split; [apply grows_refl|auto]]].
  assert (S : forall x y z, let st' := set_obj st i (set_num d x y z) in wf st' /\ grows st st' /\ (forall j, j <> i -> nth_error (objs st') j = nth_error (objs st) j)).
  { intros x y z st'. assert (G : grows st st') by (split; exists []; cbn; now rewrite app_nil_r). split; [|split; [exact G|]].
    - eapply wf_set; [exact W|exact G|reflexivity| |right; eauto]. destruct W as [W _]. destruct (W i d D). split; auto.
    - intros j J. cbn [set_obj objs st']. apply upd_diff. congruence. }
  destruct (String.eqb a "qdamp"); [apply S|]. destruct (String.eqb a "qbroad"); [apply S|]. destruct (String.eqb a "dscale"); [apply S|].
  split; [exact W|split; [apply grows_refl|auto]].
Qed.
Lemma readstr_cases parse st i t : wf st ->
  let st' := fst (readstr parse st i t) in
  wf st' /\ grows st st' /\ (forall j, j <> i -> nth_error (objs st') j = nth_error (objs st) j).
Proof.
  intros W. unfold readstr. destruct (nth_error (objs st) i) as [d|] eqn:D; [|split; [exact W|split; [apply grows_refl|auto]]].
  destruct (read_lines parse (mkObs [] [] [] [] true true) (t_lines t)) as [o r].
  set (o' := match r with Ok _ => finish o | Err _ => o end). set (h := t_header t).
  set (st1 := alloc st [o_r o'; o_G o'; o_dr o'; o_dG o'] (h_meta h)).
  assert (S : forall d', refs d' = refs (fresh_ds st (d_name d) (List.length (lists st)) (List.length (dicts st))) -> d_meta d' = List.length (dicts st) ->
    let st' := set_obj st1 i d' in wf st' /\ grows st st' /\ (forall j, j <> i -> nth_error (objs st') j = nth_error (objs st) j)).
  { intros d' RD MD st'. assert (G : grows st st') by (split; eexists; reflexivity). split; [|split; [exact G|]].
    - eapply wf_set; [exact W|exact G|reflexivity| |left; rewrite MD; lia].
      destruct (fresh_ok st st' (List.length (lists st)) (d_name d)) as [A B]; [do 4 eexists; reflexivity|eexists; reflexivity|reflexivity|].
      split; [rewrite RD; exact A|rewrite MD; exact B].
    - intros j J. cbn [set_obj objs st' st1 alloc]. apply upd_diff. congruence. }
  destruct r; [|apply S; reflexivity]. destruct (pyget (o_r o') 0); [|apply S; reflexivity]. destruct (pyget (o_r o') (-1)); apply S; reflexivity.
Qed.
Lemma copy_shape st i other d0 : wf st -> nth_error (objs st) i = Some d0 ->
  (forall j, other = Some j -> (j < List.length (objs st))%nat) ->
  exists st1 j s t, (match other with None => (create st (d_name d0), List.length (objs st)) | Some j => (clear st j, j) end) = (st1, j) /\
    wf st1 /\ grows st st1 /\ nth_error (objs st1) i = Some s /\ nth_error (objs st1) j = Some t /\
    (i <> j -> s = d0) /\ (forall k, k <> j -> (k < List.length (objs st))%nat -> nth_error (objs st1) k = nth_error (objs st) k) /\
    d_spdiameter t = None /\ (d_name t = match other with None => d_name d0 | Some _ => match nth_error (objs st) j with Some e => d_name e | None => ""%string end end).
Proof.
  intros W D O. assert (IL : (i < List.length (objs st))%nat) by (apply nth_error_Some; congruence). destruct other as [j|].
  - specialize (O j eq_refl). destruct (clear_cases st j W) as (W1 & G1 & E1 & L1).
    destruct (nth_error (objs st) j) as [e|] eqn:E; [|apply nth_error_None in E; lia].
    assert (T : nth_error (objs (clear st j)) j = Some (fresh_ds st (d_name e) (List.length (lists st)) (List.length (dicts st)))).
    { unfold clear. rewrite E. cbn [set_obj objs alloc]. now apply upd_same. }
    destruct (Nat.eq_dec i j) as [<-|N].
    + eexists _, i, _, _. split; [reflexivity|]. rewrite E in *. do 3 (split; [eassumption|]). split; [exact T|]. split; [intros X; now elim X|]. split; [intros; apply E1; assumption|]. split; reflexivity.
    + eexists _, j, d0, _. split; [reflexivity|]. split; [exact W1|]. split; [exact G1|]. split; [rewrite E1 by exact N; exact D|]. split; [exact T|]. split; [reflexivity|]. split; [intros; apply E1; assumption|]. rewrite E. split; reflexivity.
  - destruct (create_cases st (d_name d0) W) as (W1 & G1 & E1 & T).
    eexists _, _, d0, _. split; [reflexivity|]. split; [exact W1|]. split; [exact G1|]. split; [rewrite E1 by exact IL; exact D|]. split; [exact T|]. split; [reflexivity|]. split; [intros; apply E1; assumption|]. split; reflexivity.
Qed.
Lemma copy_cases st i other : wf st ->
  (forall j, other = Some j -> (j < List.length (objs st))%nat) ->
  let st' := fst (copy st i other) in
  wf st' /\ grows st st' /\ (forall j, other <> Some j -> (j < List.length (objs st))%nat -> nth_error (objs st') j = nth_error (objs st) j).
Proof.
  intros W O st'. unfold st', copy. destruct (nth_error (objs st) i) as [d0|] eqn:D; [|split; [exact W|split; [apply grows_refl|auto]]].
  destruct (copy_shape st i other d0 W D O) as (st1 & j & s & t & E & W1 & G1 & S & T & SD & K & _ & _).
  rewrite E, S, T. cbn [fst].
  set (st2 := mkState _ _ _). set (d := mkDs _ _ _ _ _ _ _ _ _ _ _ _ _ _ _).
  assert (G2 : grows st1 (set_obj st2 j d)) by (split; [exists []; cbn; now rewrite app_nil_r|eexists; reflexivity]).
  split.
  - eapply wf_set; [exact W1|exact G2|reflexivity| |left; cbn; lia]. destruct W1 as [W1 _]. destruct (W1 i s S) as [A B].
    split; [exact A|]. cbn. rewrite app_length. cbn. lia.
  - split; [eapply grows_trans; eauto|]. intros k NK KL. cbn [set_obj objs st2].
    assert (k <> j). { destruct other; injection E as <- <-; [congruence|lia]. }
    rewrite upd_diff by congruence. apply K; assumption.
Qed.
Lemma meta_cases st i k v : wf st ->
  let st' := set_meta st i k v in
  wf st' /\ objs st' = objs st /\ (forall j, j <> i -> see st' j = see st j).
Proof.
  intros [W U] st'. unfold st', set_meta. destruct (nth_error (objs st) i) as [d|] eqn:D; [|split; [split; assumption|auto]].
  split; [|split; [reflexivity|]].
  - split; [|exact U]. intros j e E. cbn [dicts lists]. rewrite upd_len. exact (W j e E).
  - intros j J. unfold see. cbn [objs]. destruct (nth_error (objs st) j) as [e|] eqn:E; [|reflexivity]. cbn [option_map]. f_equal.
    apply see_ext; [reflexivity|]. unfold get_dict. cbn [dicts].
    assert (N : d_meta d <> d_meta e) by (intros X; apply J; symmetry; apply (U i j d e); auto).
    rewrite <- !(nth_default_eq). unfold nth_default. rewrite upd_diff by exact N. reflexivity.
Qed.

(** Calls on existing objects only *)
Definition valid (st : state) (o : op) : Prop := forall j, target o = Some j -> (j < List.length (objs st))%nat.
Lemma objs_grow parse st o : (List.length (objs st) <= List.length (objs (step parse st o)))%nat.
Proof.
  assert (CL : forall j, List.length (objs (clear st j)) = List.length (objs st)).
  { intros j. unfold clear. destruct (nth_error (objs st) j); [|reflexivity]. cbn [set_obj objs alloc]. apply upd_len. }
  destruct o; cbn [step].
  - cbn [create objs]. rewrite app_length. cbn. lia.
  - rewrite CL. lia.
  - unfold setvar. destruct (nth_error (objs st) i); [|cbn; lia]. destruct (parse value); [|cbn; lia].
    destruct (String.eqb var "qdamp"); [cbn [fst set_obj objs]; rewrite upd_len; lia|]. destruct (String.eqb var "qbroad"); [cbn [fst set_obj objs]; rewrite upd_len; lia|].
    destruct (String.eqb var "dscale"); [cbn [fst set_obj objs]; rewrite upd_len; lia|cbn; lia].
  - unfold readstr. destruct (nth_error (objs st) i); [|cbn; lia]. destruct (read_lines parse (mkObs [] [] [] [] true true) (t_lines t)) as [o r].
    destruct r; [|cbn [fst set_obj objs alloc]; rewrite upd_len; lia].
    destruct (pyget (o_r (finish o)) 0); [|cbn [fst set_obj objs alloc]; rewrite upd_len; lia]. destruct (pyget (o_r (finish o)) (-1)); cbn [fst set_obj objs alloc]; rewrite upd_len; lia.
  - unfold copy. destruct (nth_error (objs st) i); [|cbn; lia]. destruct (nth_error (objs (create st (d_name d))) i); [|cbn; lia].
    destruct (nth_error (objs (create st (d_name d))) (List.length (objs st))); [|cbn; lia]. cbn [fst set_obj objs create]. rewrite upd_len, app_length. lia.
  - unfold copy. destruct (nth_error (objs st) i); [|cbn; lia]. destruct (nth_error (objs (clear st j)) i); [|cbn; lia].
    destruct (nth_error (objs (clear st j)) j); [|cbn; lia]. cbn [fst set_obj objs]. rewrite upd_len, CL. lia.
  - unfold set_meta. destruct (nth_error (objs st) i); cbn; lia.
Qed.
Lemma step_cases parse st o : wf st -> valid st o ->
  wf (step parse st o) /\ (forall j, (j < List.length (objs st))%nat -> target o <> Some j -> see (step parse st o) j = see st j).
Proof.
  intros W V.
  assert (FIN : forall st', wf st' -> grows st st' -> (forall j, (j < List.length (objs st))%nat -> target o <> Some j -> nth_error (objs st') j = nth_error (objs st) j) ->
    wf st' /\ (forall j, (j < List.length (objs st))%nat -> target o <> Some j -> see st' j = see st j)).
  { intros st' W' G E. split; [exact W'|]. intros j J T. destruct (nth_error (objs st) j) as [d|] eqn:D; [|apply nth_error_None in D; lia].
    eapply grows_see; eauto. rewrite E; auto. }
  destruct o; cbn [step target] in *.
  - destruct (create_cases st name W) as (A & B & C & _). apply FIN; auto.
  - destruct (clear_cases st i W) as (A & B & C & _). apply FIN; [exact A|exact B|]. intros; apply C; congruence.
  - destruct (setvar_cases parse st i var value W) as (A & B & C). apply FIN; [exact A|exact B|]. intros; apply C; congruence.
  - destruct (readstr_cases parse st i t W) as (A & B & C). apply FIN; [exact A|exact B|]. intros; apply C; congruence.
  - destruct (copy_cases st i None W) as (A & B & C); [discriminate|]. apply FIN; [exact A|exact B|]. intros; apply C; congruence.
  - destruct (copy_cases st i (Some j) W) as (A & B & C); [intros k [= <-]; now apply V|]. apply FIN; auto.
  - destruct (meta_cases st i k v W) as (A & B & C). split; [exact A|]. intros j J T. apply C. congruence.
Qed.

(** A state reached by some history of calls *)
Inductive reachable (parse : string -> option fl) : state -> Prop :=
| reach_empty : reachable parse empty
| reach_step st o : reachable parse st -> valid st o -> reachable parse (step parse st o).
Lemma reachable_wf parse st : reachable parse st -> wf st.
Proof.
  induction 1 as [|st o H IH V]; [|now apply step_cases].
  split; [intros [|i] d; discriminate|intros [|i] j d e; discriminate].
Qed.
Inductive history (parse : string -> option fl) : state -> list op -> state -> Prop :=
| history_nil st : history parse st [] st
| history_cons st o h st' : valid st o -> history parse (step parse st o) h st' -> history parse st (o :: h) st'.

(** Whatever is done later to other data sets - clearing, reading, setting variables or
    metadata, copying from it or over others - a data set shows the same. *)
Theorem C56_independent :
  forall parse st h st' j,
    reachable parse st -> history parse st h st' -> (j < List.length (objs st))%nat ->
    (forall o, In o h -> target o <> Some j) ->
    see st' j = see st j.
Proof.
  intros parse st h st' j R H. revert R. induction H as [|st o h st' V H IH]; intros R J N; [reflexivity|].
  destruct (step_cases parse st o (reachable_wf _ _ R) V) as [_ S].
  rewrite IH; [apply S; [exact J|apply N; now left]|now constructor| |intros; apply N; now right].
  pose proof (objs_grow parse st o). lia.
Qed.
(** All persistent attributes agree. *)
Definition same_data (v w : view) : Prop :=
  v_robs w = v_robs v /\ v_Gobs w = v_Gobs v /\ v_drobs w = v_drobs v /\ v_dGobs w = v_dGobs v /\
  v_stype w = v_stype v /\ v_qmax w = v_qmax v /\ v_qdamp w = v_qdamp v /\ v_qbroad w = v_qbroad v /\
  v_dscale w = v_dscale v /\ v_rmin w = v_rmin v /\ v_rmax w = v_rmax v /\ v_filename w = v_filename v /\ v_meta w = v_meta v.
(** copy gives an object with the same data and leaves the source as it was; it is a new
    object unless another one is given, and carries the source's name in that case. *)
Theorem C56_copy :
  forall parse st i other v,
    reachable parse st -> see st i = Some v ->
    other <> Some i -> (forall j, other = Some j -> (j < List.length (objs st))%nat) ->
    exists st' k w, copy st i other = (st', Ok k) /\ k <> i /\ see st' k = Some w /\ same_data v w /\
      see st' i = Some v /\
      match other with Some j => k = j /\ option_map v_name (see st j) = Some (v_name w)
                     | None => see st k = None /\ v_name w = v_name v end.
Proof.
  intros parse st i other v R V NI O. pose proof (reachable_wf _ _ R) as W.
  unfold see in V. destruct (nth_error (objs st) i) as [d0|] eqn:D; [|discriminate]. injection V as <-.
  assert (IL : (i < List.length (objs st))%nat) by (apply nth_error_Some; congruence).
  destruct (copy_cases st i other W O) as (W' & G' & K').
  destruct (copy_shape st i other d0 W D O) as (st1 & j & s & t & E & W1 & G1 & S & T & SD & K & SP & NM).
  assert (NJ : j <> i) by (destruct other; injection E as <- <-; [congruence|lia]).
  assert (s = d0) as -> by (apply SD; congruence).
  unfold copy in *. rewrite D in *. rewrite E, S, T in *. cbn [fst] in *.
  eexists _, j, _. split; [reflexivity|]. split; [exact NJ|].
  assert (JL : (j < List.length (objs st1))%nat) by (apply nth_error_Some; congruence).
  split; [unfold see; cbn [set_obj objs]; rewrite upd_same by exact JL; reflexivity|].
  destruct W as [W U]. destruct (W i d0 D) as [A B]. destruct G1 as [[l L] [m M]].
  assert (GL : forall a, In a (refs d0) -> nth a (lists st1) [] = nth a (lists st) []) by (intros a IN; rewrite L; apply app_nth1; auto).
  split.
  { unfold same_data, see_ds, get_list, get_dict.
    cbn [v_robs v_Gobs v_drobs v_dGobs v_stype v_qmax v_qdamp v_qbroad v_dscale v_rmin v_rmax v_filename v_meta d_robs d_Gobs d_drobs d_dGobs d_stype d_qmax d_qdamp d_qbroad d_dscale d_rmin d_rmax d_filename d_meta set_obj lists dicts].
    rewrite !GL by (cbn; tauto). rewrite app_nth2, Nat.sub_diag by lia. cbn [nth]. rewrite M, app_nth1 by exact B. repeat split. }
  split.
  { rewrite (grows_see st _ i d0 (conj W U) G' D); [unfold see; rewrite D; reflexivity|]. rewrite K'; [exact D|exact NI|exact IL]. }
  unfold see_ds. cbn [v_name d_name]. destruct other as [j'|]; injection E as <- <-.
  - split; [reflexivity|]. rewrite NM. unfold see. specialize (O j' eq_refl).
    destruct (nth_error (objs st) j') as [e|] eqn:Y; [reflexivity|apply nth_error_None in Y; lia].
  - split; [unfold see; assert (nth_error (objs st) (List.length (objs st)) = None) as -> by (apply nth_error_None; lia); reflexivity|exact NM].
Qed.

(** The particle diameter is not copied. *)
Theorem C90_spdiameter_refuted :
  forall parse st i other v v0,
    reachable parse st -> see st i = Some v -> v_spdiameter v = Some v0 ->
    other <> Some i -> (forall j, other = Some j -> (j < List.length (objs st))%nat) ->
    exists st' k w, copy st i other = (st', Ok k) /\ see st' k = Some w /\ v_spdiameter w <> v_spdiameter v.
Proof.
  intros parse st i other v v0 R V SV NI O. pose proof (reachable_wf _ _ R) as W.
  unfold see in V. destruct (nth_error (objs st) i) as [d0|] eqn:D; [|discriminate]. injection V as <-.
  destruct (copy_shape st i other d0 W D O) as (st1 & j & s & t & E & W1 & G1 & S & T & SD & K & SP & NM).
  unfold copy. rewrite D, E, S, T. eexists _, j, _. split; [reflexivity|].
  assert (JL : (j < List.length (objs st1))%nat) by (apply nth_error_Some; congruence).
  split; [unfold see; cbn [set_obj objs]; rewrite upd_same by exact JL; reflexivity|].
  rewrite SV. unfold see_ds. cbn [v_spdiameter d_spdiameter]. rewrite SP. discriminate.
Qed.
(** Copying a data set to itself erases it. *)
Theorem C90_self_copy_refuted :
  forall st i, (i < List.length (objs st))%nat ->
    exists st' w, copy st i (Some i) = (st', Ok i) /\ see st' i = Some w /\ v_robs w = [] /\ v_Gobs w = [] /\ v_rmin w = None.
Proof.
  intros st i IL. destruct (nth_error (objs st) i) as [d|] eqn:D; [|apply nth_error_None in D; lia].
  assert (T : nth_error (objs (clear st i)) i = Some (fresh_ds st (d_name d) (List.length (lists st)) (List.length (dicts st)))).
  { unfold clear. rewrite D. cbn [set_obj objs alloc]. now apply upd_same. }
  assert (LL : lists (clear st i) = (lists st ++ [[]; []; []; []])%list) by (unfold clear; rewrite D; reflexivity).
  unfold copy. rewrite D, T. eexists _, _. split; [reflexivity|]. unfold see. cbn [set_obj objs].
  rewrite upd_same by (apply nth_error_Some; congruence). split; [reflexivity|].
  unfold see_ds, get_list. cbn [lists set_obj v_robs v_Gobs v_rmin d_robs d_Gobs d_rmin fresh_ds]. rewrite LL.
  destruct (nth_fresh (lists st) (@nil fl) [] [] []) as (-> & -> & _). auto.
Qed.
(** The lists are shared: appending to robs of a copy changes the original. *)
Theorem C90_inplace_edit_refuted :
  forall st i d x, nth_error (objs st) i = Some d -> wf st ->
    exists st' k w, copy st i None = (st', Ok k) /\ see (append_robs st' k x) i = Some w /\ v_robs w = (get_list st (d_robs d) ++ [x])%list.
Proof.
  intros st i d x D W.
  destruct (copy_shape st i None d W D) as (st1 & j & s & t & E & W1 & G1 & S & T & SD & K & _ & _); [discriminate|].
  assert (IL : (i < List.length (objs st))%nat) by (apply nth_error_Some; congruence).
  assert (NJ : j <> i) by (injection E as <- <-; lia). assert (s = d) as -> by (apply SD; congruence).
  unfold copy. rewrite D. cbv beta iota. injection E as <- <-. rewrite S, T. eexists _, (List.length (objs st)), _. split; [reflexivity|].
  assert (JL : (List.length (objs st) < List.length (objs (create st (d_name d))))%nat) by (apply nth_error_Some; congruence).
  unfold append_robs. cbn [set_obj objs]. rewrite upd_same by exact JL. unfold see. cbn [objs]. rewrite upd_diff by exact NJ. rewrite S.
  split; [reflexivity|]. unfold see_ds. cbn [v_robs]. unfold get_list. cbn [lists d_robs].
  destruct W as [W _]. destruct (W i d D) as [A _]. destruct G1 as [[l L] _].
  assert (RL : (d_robs d < List.length (lists st))%nat) by (apply A; cbn; auto).
  assert (RL1 : (d_robs d < List.length (lists (create st (d_name d))))%nat) by (rewrite L, app_length; lia).
  rewrite <- nth_default_eq. unfold nth_default. rewrite upd_same by exact RL1. f_equal. rewrite L. now apply app_nth1.
Qed.

(** ** C67: PdfFit variables *)
Definition known (var : string) : Prop := var = "qdamp" \/ var = "qbroad" \/ var = "dscale".
Theorem C67_setvar :
  forall parse st i var value v,
    see st i = Some v -> 
    (parse value = None -> setvar parse st i var value = (st, Err ValueError)) /\
    (parse value <> None -> ~ known var -> setvar parse st i var value = (st, Err KeyError)) /\
    (forall x, parse value = Some x -> known var ->
      exists st', setvar parse st i var value = (st', Ok tt) /\
        see st' i = Some (mkView (v_name v) (v_robs v) (v_Gobs v) (v_drobs v) (v_dGobs v) (v_stype v) (v_qmax v)
          (if String.eqb var "qdamp" then x else v_qdamp v) (if String.eqb var "qbroad" then x else v_qbroad v) (v_spdiameter v)
          (if String.eqb var "dscale" then x else v_dscale v) (v_rmin v) (v_rmax v) (v_filename v) (v_meta v)) /\
        (forall j, j <> i -> see st' j = see st j) /\
        getvar st' i var = Ok x /\
        (forall other, other <> var -> getvar st' i other = getvar st i other)).
Proof.
  intros parse st i var value v V. unfold see in V. destruct (nth_error (objs st) i) as [d|] eqn:D; [|discriminate]. injection V as <-.
  assert (IL : (i < List.length (objs st))%nat) by (apply nth_error_Some; congruence).
  unfold setvar. rewrite D. split; [intros ->; reflexivity|]. split.
  - intros P N. destruct (parse value); [|congruence]. unfold known in N.
    destruct (String.eqb_spec var "qdamp"); [tauto|]. destruct (String.eqb_spec var "qbroad"); [tauto|]. destruct (String.eqb_spec var "dscale"); [tauto|]. reflexivity.
  - intros x -> N.
    assert (REST : forall d', let st' := set_obj st i d' in (forall j, j <> i -> see st' j = see st j) /\ nth_error (objs st') i = Some d').
    { intros d' st'. split; [|cbn [st' set_obj objs]; now apply upd_same]. intros j J. unfold see. cbn [st' set_obj objs]. rewrite upd_diff by congruence. reflexivity. }
    destruct N as [ -> | [ -> | -> ] ]; cbn [String.eqb Ascii.eqb Bool.eqb];
      match goal with |- context [set_obj st i ?d'] => destruct (REST d') as [A B]; exists (set_obj st i d') end;
      (split; [reflexivity|]); (split; [unfold see; rewrite B; reflexivity|]); (split; [exact A|]);
      unfold getvar; rewrite B, D; (split; [reflexivity|]);
      intros other NO; destruct (String.eqb_spec other "qdamp"); try congruence; destruct (String.eqb_spec other "qbroad"); try congruence;
      destruct (String.eqb_spec other "dscale"); try congruence; reflexivity.
Qed.
Theorem C67_getvar :
  forall st i var v, see st i = Some v ->
    getvar st i var =
      if String.eqb var "qdamp" then Ok (v_qdamp v) else if String.eqb var "qbroad" then Ok (v_qbroad v)
      else if String.eqb var "dscale" then Ok (v_dscale v) else Err KeyError.
Proof.
  intros st i var v V. unfold see in V. unfold getvar. destruct (nth_error (objs st) i) as [d|]; [|discriminate]. injection V as <-. reflexivity.
Qed.

(** ** The hypotheses are met *)
Definition xparse (w : string) : option fl :=
  if String.eqb w "1" then Some (Fin 1) else if String.eqb w "2" then Some (Fin 2) else if String.eqb w "0" then Some (Fin 0)
  else if String.eqb w "Infinity" then Some PInf else if String.eqb w "inf" then Some PInf else None.
Definition xtext : text := mkText (mkHeader (Some "N") (Some (Fin 2)) None None (Some (Fin 1)) None [("temperature", Fin 2)])
  [["1"; "2"; "1"; "1"]; ["2"; "2"; "1"; "inf"]].
Definition xstate : state := step xparse (step xparse empty (New "a")) (Read 0 xtext).
Example C55_C56_example :
  reachable xparse xstate /\ snd (readstr xparse (create empty "a") 0 xtext) = Ok tt /\
  (exists v, see xstate 0 = Some v /\ v_robs v = [Fin 1; Fin 2] /\ v_spdiameter v = Some (Fin 1) /\ v_meta v = [("temperature", Fin 2)]) /\
  history xparse xstate [CopyNew 0; SetVar 1 "qdamp" "2"; Clear 1] (run xparse xstate [CopyNew 0; SetVar 1 "qdamp" "2"; Clear 1]).
Proof.
  split; [|split; [|split]].
  - unfold xstate. apply reach_step; [apply reach_step; [constructor|intros j; discriminate]|]. intros j [= <-]. cbn. lia.
  - destruct (C55_outcome xparse (create empty "a") 0 xtext) as (_ & S & _); [cbn; lia|discriminate|]. apply S.
    intros ws [<-|[<-|[]]]; (split; [cbn; lia|]); intros w; cbn [In]; intros H; repeat (destruct H as [<-|H]; [discriminate|]); destruct H.
  - unfold xstate. cbn [step].
    destruct (readstr xparse (create empty "a") 0 xtext) as [st' r] eqn:E. cbn [fst].
    assert (r = Ok tt) as ->.
    { destruct (C55_outcome xparse (create empty "a") 0 xtext) as (_ & S & _); [cbn; lia|discriminate|]. rewrite E in S. apply S.
      intros ws [<-|[<-|[]]]; (split; [cbn; lia|]); intros w; cbn [In]; intros H; repeat (destruct H as [<-|H]; [discriminate|]); destruct H. }
    destruct (C55_success _ _ _ _ _ E) as (v & V & _ & [L I0] & _). exists v. split; [exact V|].
    destruct (I0 0%nat _ eq_refl) as (w & x & A & B & C). destruct (I0 1%nat _ eq_refl) as (w' & x' & A' & B' & C').
    injection A as <-. injection A' as <-. injection B as <-. injection B' as <-.
    split; [destruct (v_robs v) as [|p [|q [|? ?]]]; cbn in L; try discriminate; cbn in C, C'; congruence|].
    unfold readstr in E. cbn [create objs empty List.app nth_error] in E.
    destruct (read_lines xparse (mkObs [] [] [] [] true true) (t_lines xtext)) as [o r]. destruct r; [|discriminate].
    destruct (pyget (o_r (finish o)) 0); [|discriminate]. destruct (pyget (o_r (finish o)) (-1)); [|discriminate].
    injection E as <-. unfold see in V. cbn in V. injection V as <-. split; reflexivity.
  - assert (O : (0 < List.length (objs xstate))%nat).
    { assert (List.length (objs (step xparse empty (New "a"))) = 1%nat) as X by reflexivity. pose proof (objs_grow xparse (step xparse empty (New "a")) (Read 0 xtext)). unfold xstate. lia. }
    set (h := [CopyNew 0; SetVar 1 "qdamp" "2"; Clear 1]).
    assert (L1 : (2 <= List.length (objs (step xparse xstate (CopyNew 0))))%nat).
    { cbn [step]. unfold copy. destruct (nth_error (objs xstate) 0) as [d|] eqn:D; [|apply nth_error_None in D; lia].
      cbn [create objs]. rewrite nth_error_app1, D by exact O. rewrite nth_error_app2, Nat.sub_diag by lia. cbn [nth_error fst set_obj objs].
      rewrite upd_len, app_length. cbn [List.length]. lia. }
    unfold h. cbn [run fold_left]. constructor; [intros j; discriminate|]. constructor; [intros j [= <-]; lia|].
    constructor; [intros j [= <-]|constructor]. pose proof (objs_grow xparse (step xparse xstate (CopyNew 0)) (SetVar 1 "qdamp" "2")). lia.
Qed.
Example C55_infinity_example : xparse "1" = Some (Fin 1) /\ xparse "Infinity" = Some PInf /\ inf_or_nan "Infinity" = false /\ inf_or_nan "-iNF" = true /\ inf_or_nan "nan" = true.
Proof. repeat split. Qed.

Print Assumptions C55_success.
Print Assumptions C55_outcome.
Print Assumptions C112_finite.
Print Assumptions C89_infinity_refuted.
Print Assumptions C89_failed_read_keeps_data_refuted.
Print Assumptions C56_independent.
Print Assumptions C56_copy.
Print Assumptions C90_spdiameter_refuted.
Print Assumptions C90_self_copy_refuted.
Print Assumptions C90_inplace_edit_refuted.
Print Assumptions C67_setvar.
Print Assumptions C67_getvar.

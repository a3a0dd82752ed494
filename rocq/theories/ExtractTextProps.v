(** Properties C198-C201: the text of a peak extraction. *)
From Coq Require Import String Ascii DecimalString Permutation.
From Verif Require Import Prelude Functions FunctionsProofs FunctionsProps Tracer TracerProps Serial SerialProps Summary SummaryProps ExtractText.
Open Scope string_scope.

Section Writing.
Context {V F N : Type}.
Variable repr : V -> string.
Variables (vnone : V) (vint : Z -> V) (vstr : string -> V).
Variable fclass fmodule : F -> string.
Variable fbase : F -> option F.
Variable fmeta : F -> list (string * V).
Variable ftext : V -> string.
Variable feq : F -> F -> bool.
Variable safelist : list F -> list F.
Variable show_ints : list Z -> string.
Variable gen : N -> string.
Notation extraction := (@extraction V F N).
Notation write := (writestr repr vnone vint vstr fclass fmodule fbase fmeta ftext feq safelist show_ints gen).
(** Function objects are compared by identity; the list of functions contains those asked for
    and the functions they are built on (C19, C198_function_lists). *)
Hypothesis FE : forall f g, feq f g = true <-> f = g.
Definition closed_list := forall fs, incl fs (safelist fs) /\ forall f g, In f (safelist fs) -> fbase f = Some g -> In g (safelist fs).
Hypothesis SL : closed_list.

Lemma findex_in f l : In f l -> exists i, findex feq f l = Some i.
Proof.
  induction l as [|g r IH]; [intros []|]. intros [ -> |I]; cbn [findex].
  - assert (feq f f = true) as -> by (now apply FE). eauto.
  - destruct (feq f g); [eauto|]. destruct (IH I) as (i & ->). eexists. reflexivity.
Qed.
Lemma findex_nth f l i : findex feq f l = Some i -> nth_error l i = Some f.
Proof.
  revert i. induction l as [|g r IH]; intros i; cbn [findex]; [discriminate|]. destruct (feq f g) eqn:E.
  - intros [= <-]. apply FE in E. now subst g.
  - destruct (findex feq f r) as [j|]; [|discriminate]. cbn [option_map]. intros [= <-]. now apply IH.
Qed.
Lemma fun_lines_total l f : (forall g, fbase f = Some g -> In g l) -> exists ls, fun_lines repr vnone vint vstr fclass fmodule fbase fmeta ftext feq l f = Ok ls.
Proof.
  intros H. unfold fun_lines. destruct (fbase f) as [g|]; [|eexists; reflexivity]. destruct (findex_in g l (H g eq_refl)) as (i & ->). eexists. reflexivity.
Qed.
Lemma write_numbered_total head l fs n : (forall f g, In f fs -> fbase f = Some g -> In g l) ->
  exists ls, write_numbered repr vnone vint vstr fclass fmodule fbase fmeta ftext feq show_index head l fs n = Ok ls.
Proof.
  revert n. induction fs as [|f r IH]; intros n H; [eexists; reflexivity|]. cbn [write_numbered]. destruct (fun_lines_total l f) as (ls & ->); [intros g; apply H; now left|]. cbn [bind].
  destruct (IH (S n)) as (t & ->); [intros f' g I; apply H; now right|]. eexists. reflexivity.
Qed.
Lemma part_lines_total l (p : part) : In (part_owner p) l -> exists ls, part_lines repr vint feq l p = Ok ls.
Proof. intros H. unfold part_lines. destruct (findex_in _ _ H) as (i & ->). eexists. reflexivity. Qed.
Lemma write_parts_total head l (ps : list part) : (forall p, In p ps -> In (part_owner p) l) -> exists ls, write_parts repr vint feq head l ps = Ok ls.
Proof.
  induction ps as [|p r IH]; intros H; [eexists; reflexivity|]. cbn [write_parts]. destruct (part_lines_total l p) as (ls & ->); [apply H; now left|]. cbn [bind].
  destruct IH as (t & ->); [intros p' I; apply H; now right|]. eexists. reflexivity.
Qed.
Lemma indices_total l fs : incl fs l -> exists is, indices feq l fs = Ok is.
Proof.
  induction fs as [|f r IH]; intros H; [eexists; reflexivity|]. cbn [indices]. destruct (findex_in f l) as (i & ->); [apply H; now left|]. destruct IH as (is & ->); [intros x I; apply H; now right|]. eexists. reflexivity.
Qed.
Lemma row_total i (cols : list (string * list N)) : (forall k a, In (k, a) cols -> (i < List.length a)%nat) <-> exists w, row gen i cols = Ok w.
Proof.
  induction cols as [|[k a] r IH]; [split; [intros _; eexists; reflexivity|intros _ k a []]|]. cbn [row]. split.
  - intros H. destruct (nth_error a i) as [v|] eqn:E; [|apply nth_error_None in E; specialize (H k a (or_introl eq_refl)); lia]. destruct IH as [IH _]. destruct IH as (t & ->); [intros k' a' I; apply (H k' a'); now right|]. eexists. reflexivity.
  - intros (w & E). destruct (nth_error a i) as [v|] eqn:EN; [|discriminate]. destruct (row gen i r) as [t|]; [|discriminate]. intros k' a' [I|I]; [injection I as <- <-; apply nth_error_Some; congruence|]. destruct IH as [_ IH]. now apply (IH (ex_intro _ t eq_refl) k' a').
Qed.
Lemma data_rows_total is (cols : list (string * list N)) : (forall i k a, In i is -> In (k, a) cols -> (i < List.length a)%nat) <-> exists ls, data_rows gen is cols = Ok ls.
Proof.
  induction is as [|i r IH]; [split; [intros _; eexists; reflexivity|intros _ i k a []]|]. cbn [data_rows]. split.
  - intros H. destruct (proj1 (row_total i cols)) as (w & ->); [intros k a I; apply (H i k a); [now left|exact I]|]. cbn [bind]. destruct (proj1 IH) as (t & ->); [intros i' k a I; apply H; now right|]. eexists. reflexivity.
  - intros (ls & E). destruct (row gen i cols) as [w|] eqn:ER; [|discriminate]. cbn [bind] in E. destruct (data_rows gen r cols) as [t|]; [|discriminate]. intros i' k a [ <- |I] J; [apply (proj2 (row_total i cols) (ex_intro _ w ER) k a J)|]. exact (proj2 IH (ex_intro _ t eq_refl) i' k a I J).
Qed.

(** The number of rows: the length of the last of the five arrays that is there. *)
Definition rows_of (e : extraction) : nat :=
  match e_edy e, e_dy e, e_dx e, e_y e, e_x e with
  | Some a, _, _, _, _ | None, Some a, _, _, _ | None, None, Some a, _, _ | None, None, None, Some a, _ | None, None, None, None, Some a => List.length a
  | None, None, None, None, None => 0%nat
  end.
Definition arrays_of (e : extraction) : list (option (list N)) := [e_x e; e_y e; e_dx e; e_dy e; e_edy e].
Lemma numlines_rows (e : extraction) : numlines (present (columns e)) = rows_of e.
Proof. unfold columns, rows_of. destruct (e_x e), (e_y e), (e_dx e), (e_dy e), (e_edy e); reflexivity. Qed.
Lemma present_arrays (e : extraction) a : (exists k, In (k, a) (present (columns e))) <-> In (Some a) (arrays_of e).
Proof using Type.
  unfold arrays_of, columns. destruct (e_x e), (e_y e), (e_dx e), (e_dy e), (e_edy e); cbn [present In]; split.
  all: intros H; first [destruct H as (k & H)|idtac]; repeat (destruct H as [H|H]; [try discriminate H; try (injection H as <- <- || injection H as <-); solve [clear; intuition|exists "x"; clear; intuition|exists "y"; clear; intuition|exists "dx"; clear; intuition|exists "dy"; clear; intuition|exists "edy"; clear; intuition]|]); destruct H.
Qed.

(** The text can be made exactly if the clustering resolution is set, the peak functions of
    the extracted model are known, and no array is shorter than the number of rows. *)
Theorem C198_when_text_is_made :
  forall w time user version (e : extraction),
    (exists s, write (Some w) time user version e = Ok s) <->
    (e_cres e <> None /\ (forall m, e_cluster e = Some m -> mc_funcs m <> None) /\ (forall a, In (Some a) (arrays_of e) -> (rows_of e <= List.length a)%nat)).
Proof.
  intros w time user version e. split.
  - intros (s & E). unfold writestr, writelines, all_pf in E.
    assert (FM : forall m, e_cluster e = Some m -> mc_funcs m <> None). { intros m EM C. rewrite EM, C in E. discriminate. }
    destruct (match e_cluster e with None => Ok [] | Some m => _ end) as [x|]; [|discriminate]. cbn [bind] in E.
    repeat match type of E with bind (bind ?x _) _ = Ok _ => destruct x eqn:?; [cbn [bind] in E|discriminate] end.
    assert (NC : e_cres e <> None) by (intros C; match goal with H : match e_cres e with None => _ | Some _ => _ end = Ok _ |- _ => rewrite C in H; discriminate end).
    split; [exact NC|]. split; [exact FM|]. intros arr I. apply present_arrays in I as (k & I). match goal with H : data_rows _ _ _ = Ok ?l |- _ => pose proof (proj2 (data_rows_total _ _) (ex_intro _ l H)) as D end. rewrite numlines_rows in D.
    destruct (rows_of e) as [|n] eqn:R; [lia|]. specialize (D n k arr). rewrite in_seq in D. assert (n < List.length arr)%nat by (apply D; [lia|exact I]). lia.
  - intros (NC & FM & LA). unfold writestr, writelines, all_pf.
    destruct (match e_cluster e with None => Ok [] | Some m => _ end) as [x|] eqn:EX.
    2:{ exfalso. destruct (e_cluster e) as [m|]; [|discriminate]. specialize (FM m eq_refl). now destruct (mc_funcs m). }
    cbn [bind]. set (pfs := (optl (e_pf e) ++ map part_owner (optl (e_initial e)) ++ x)%list). destruct (SL pfs) as (P1 & P2). destruct (SL (all_bf e)) as (B1 & B2).
    destruct (write_numbered_total "# BaselineFunction " (safelist (all_bf e)) (safelist (all_bf e)) 0 B2) as (bf & ->). cbn [bind].
    destruct (write_numbered_total "# PeakFunction " (safelist pfs) (safelist pfs) 0 P2) as (pf & ->). cbn [bind].
    assert (BO : exists bo, match e_baseline e with BvNone => Ok ["None"] | BvFun f => match findex feq f (safelist (all_bf e)) with Some i => Ok [show_index i] | None => Err AttributeError end
           | BvPart p => do ls <- part_lines repr vint feq (safelist (all_bf e)) p; Ok (ls ++ [""])%list end = Ok bo).
    { unfold all_bf in *. destruct (e_baseline e) as [|f|p]; [eexists; reflexivity| |].
      - destruct (findex_in f (safelist ([f] ++ match e_cluster e with Some m => match mc_base m with Some b => [part_owner b] | None => [] end | None => [] end)%list)) as (i & ->); [apply B1; now left|]. eexists. reflexivity.
      - destruct (part_lines_total (safelist ([part_owner p] ++ match e_cluster e with Some m => match mc_base m with Some b => [part_owner b] | None => [] end | None => [] end)%list) p) as (ls & ->); [apply B1; now left|]. eexists. reflexivity. }
    destruct BO as (bo & ->). cbn [bind].
    assert (IP : exists ip, match e_initial e with None => Ok ["None"] | Some ps => write_parts repr vint feq "# InitialPeak" (safelist pfs) ps end = Ok ip).
    { unfold pfs in *. destruct (e_initial e) as [ps|]; [|eexists; reflexivity]. apply write_parts_total. intros p I. apply P1, in_or_app. right. apply in_or_app. left. now apply in_map. }
    destruct IP as (ip & ->). cbn [bind].
    assert (PI : exists t, match e_pf e with None => Ok "pf=None" | Some fs => do i <- indices feq (safelist pfs) fs; Ok ("pf=" ++ show_ints i) end = Ok t).
    { destruct (e_pf e) as [fs|] eqn:EP; [|eexists; reflexivity]. destruct (indices_total (safelist pfs) fs) as (is & ->); [intros f I; apply P1, in_or_app; left; exact I|]. eexists. reflexivity. }
    destruct PI as (pi & ->). cbn [bind]. destruct (e_cres e) as [c|]; [|contradiction]. cbn [bind]. rewrite numlines_rows.
    destruct (proj1 (data_rows_total (seq 0 (rows_of e)) (present (columns e)))) as (rows & ->).
    { intros i k a I J. apply in_seq in I. assert (rows_of e <= List.length a)%nat by (apply LA, present_arrays; eauto). lia. }
    cbn [bind].
    assert (CL : exists cl, match e_cluster e with None => Ok ["None"] | Some m => mc_writestr repr vnone vint vstr fclass fmodule fbase fmeta ftext feq safelist show_ints show_index (Some (safelist pfs)) (Some (safelist (all_bf e))) m end = Ok cl).
    { unfold all_bf in *. destruct (e_cluster e) as [m|]; [|eexists; reflexivity]. unfold mc_writestr. cbn [bind]. destruct (mc_funcs m) as [fs|]; [|discriminate]. injection EX as <-.
      destruct (indices_total (safelist pfs) fs) as (is & ->); [intros f I; apply P1; unfold pfs; rewrite !in_app_iff; tauto|]. cbn [bind].
      assert (MB : exists bo', match mc_base m with None => Ok ["None"] | Some b => do ls <- part_lines repr vint feq (safelist (match e_baseline e with BvNone => [] | BvFun f => [f] | BvPart p => [part_owner p] end ++ match mc_base m with Some b => [part_owner b] | None => [] end)%list) b; Ok (ls ++ [""])%list end = Ok bo').
      { destruct (mc_base m) as [b|]; [|eexists; reflexivity]. destruct (part_lines_total (safelist (match e_baseline e with BvNone => [] | BvFun f => [f] | BvPart p => [part_owner p] end ++ [part_owner b])%list) b) as (ls & ->); [apply B1, in_or_app; right; now left|]. eexists. reflexivity. }
      destruct MB as (bo' & ->). cbn [bind]. destruct (write_parts_total "# ModelPeak" (safelist pfs) (mc_peaks m)) as (mp & ->); [|eexists; reflexivity].
      intros p I. apply P1. unfold pfs. rewrite !in_app_iff. right; right; right. now apply in_map. }
    destruct CL as (cl & ->). cbn [bind]. eexists. reflexivity.
Qed.

(** ** C199 *)
(** "An extraction can be written": no PeakExtraction can, only its subclass for PDFs. *)
Theorem C199_base_class_refuted :
  forall time user version (e : extraction), exists x, write None time user version e = Err x.
Proof.
  intros time user version e. unfold writestr, writelines, all_pf.
  destruct (match e_cluster e with None => Ok [] | Some m => _ end) as [x|]; [|eexists; reflexivity]. cbn [bind].
  repeat match goal with |- exists _, bind (bind ?x _) _ = _ => destruct x; [cbn [bind]|eexists; reflexivity] end.
  all: eexists; reflexivity.
Qed.
End Writing.

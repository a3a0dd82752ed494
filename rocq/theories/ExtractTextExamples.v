(** Non-vacuity of C198-C200: an extraction that is written and read, in the small part of
    Python of SerialProps.v; eval ignores blanks at the end. *)
From Coq Require Import String Ascii DecimalString.
From Verif Require Import Prelude Functions Tracer TracerProps Serial SerialProps Summary SummaryProps ExtractText ExtractTextProps ExtractReadProps.
Open Scope string_scope.

Definition zeval (s : string) : result val := veval (rstrip s).
Definition zshow_ints (l : list Z) : string := vrepr (VList (map VInt l)).
Fixpoint all_ints (l : list val) : result (list Z) :=
  match l with [] => Ok [] | VInt z :: r => do t <- all_ints r; Ok (z :: t) | _ => Err TypeError end.
Definition zeval_ints (s : string) : result (option (list Z)) :=
  do v <- zeval s; match v with VNone => Ok None | VList l => do t <- all_ints l; Ok (Some t) | _ => Err TypeError end.
(** functions: 0, and others built on it; the list begins with 0 *)
Definition zsafe (fs : list nat) : list nat := 0%nat :: nodup Nat.eq_dec (remove Nat.eq_dec 0%nat fs).
Definition zparse (s : string) : result Z := match eval_int s with Ok z => Ok z | Err _ => Err ValueError end.

Lemma int_word z : word (show_int z).
Proof.
  destruct (int_digits z) as [H N]. split; [exact N|]. revert H. generalize (show_int z) as s. induction s as [|c r IH]; [reflexivity|]. cbn [all_chars]. intros H. apply andb_true_iff in H as [H1 H2]. rewrite (IH H2), andb_true_r.
  apply existsb_exists in H1 as (x & Hx & E). apply Ascii.eqb_eq in E. subst x. cbn [In] in Hx. repeat (destruct Hx as [<-|Hx]; [reflexivity|]). destruct Hx.
Qed.
Lemma zeval_int z : zeval (show_int z) = Ok (VInt z).
Proof.
  unfold zeval. destruct (int_digits z) as [H N]. destruct (digits_text _ H N) as (_ & _ & L). rewrite rstrip_keep by exact L. apply veval_int.
Qed.
Lemma before_last_app c s : before_last c (s ++ String c "") = Some s.
Proof.
  induction s as [|d r IH]; [cbn; now rewrite Ascii.eqb_refl|]. cbn [append before_last]. destruct (r ++ String c "") as [|e t] eqn:E; [destruct r; discriminate|]. rewrite <- E in *. rewrite E in *. now rewrite IH.
Qed.
Lemma commas_app a b : commas (a ++ b) = commas a ++ commas b.
Proof. induction a as [|c a IH]; [reflexivity|]. cbn [append commas]. now rewrite IH. Qed.
Lemma commas_int z : commas (show_int z) = show_int z.
Proof.
  destruct (int_digits z) as [H _]. revert H. generalize (show_int z) as s. induction s as [|c r IH]; [reflexivity|]. cbn [all_chars commas]. intros H. apply andb_true_iff in H as [H1 H2]. rewrite (IH H2). f_equal.
  apply existsb_exists in H1 as (x & Hx & E). apply Ascii.eqb_eq in E. subst x. cbn [In] in Hx. repeat (destruct Hx as [<-|Hx]; [reflexivity|]). destruct Hx.
Qed.
Lemma words_ints l : words "" (commas (join ", " (map show_int l))) = map show_int l.
Proof.
  induction l as [|z r IH]; [reflexivity|]. pose proof (int_word z) as W. destruct r as [|z2 r]; [cbn [map join]; rewrite commas_int; now apply words_end|].
  change (join ", " (map show_int (z :: z2 :: r))) with (show_int z ++ ", " ++ join ", " (map show_int (z2 :: r))). rewrite !commas_app, commas_int. rewrite words_word by apply W.
  change (commas ", ") with "  ". remember (commas (join ", " (map show_int (z2 :: r)))) as rest. change (map show_int (z :: z2 :: r)) with (show_int z :: map show_int (z2 :: r)). rewrite <- IH. cbn [append words]. change (isblank " ") with true. cbv iota.
  destruct W as (NE & _). destruct (show_int z) as [|c t]; [contradiction|]. reflexivity.
Qed.
Lemma atoms_ints l : atoms (map show_int l) = Ok (map VInt l).
Proof. induction l as [|z r IH]; [reflexivity|]. cbn [map atoms]. unfold atom at 1. rewrite TracerProps.eval_show. cbn [bind]. now rewrite IH. Qed.
Lemma all_ints_map l : all_ints (map VInt l) = Ok l.
Proof. induction l as [|z r IH]; [reflexivity|]. cbn [map all_ints]. now rewrite IH. Qed.
Lemma zshow_text l : zshow_ints l = String "[" (join ", " (map show_int l) ++ "]").
Proof. unfold zshow_ints. cbn [vrepr]. rewrite map_map. reflexivity. Qed.
Lemma zints l : no_lf (zshow_ints l) /\ zeval_ints (strip (zshow_ints l)) = Ok (Some l).
Proof.
  rewrite zshow_text. split.
  - assert (J : no_lf (join ", " (map show_int l))).
    { induction l as [|z r IH]; [reflexivity|]. destruct r as [|z2 r]; [cbn [map join]; apply one_line_no_lf, (vint_text z)|]. change (join ", " (map show_int (z :: z2 :: r))) with (show_int z ++ ", " ++ join ", " (map show_int (z2 :: r))).
      apply no_lf_app; [apply one_line_no_lf, (vint_text z)|]. apply no_lf_app; [reflexivity|exact IH]. }
    change (no_lf ("[" ++ join ", " (map show_int l) ++ "]")). apply no_lf_app; [reflexivity|]. apply no_lf_app; [exact J|reflexivity].
  - assert (L : last_nonblank (String "[" (join ", " (map show_int l) ++ "]"))) by (change (last_nonblank ("[" ++ join ", " (map show_int l) ++ "]")); apply last_nonblank_app, last_nonblank_app; reflexivity).
    assert (ST : strip (String "[" (join ", " (map show_int l) ++ "]")) = String "[" (join ", " (map show_int l) ++ "]")) by (apply strip_ends; [split; [reflexivity|exact L]|now left]).
    rewrite ST. unfold zeval_ints, zeval. rewrite rstrip_keep by exact L.
    assert (A : veval (String "[" (join ", " (map show_int l) ++ "]")) = Ok (VList (map VInt l))).
    { unfold veval. assert (AE : exists x, atom (String "[" (join ", " (map show_int l) ++ "]")) = Err x).
      { unfold atom, eval_int. generalize (join ", " (map show_int l) ++ "]") as t. intros t. eexists.
        assert (NI : NilZero.int_of_string (String "[" t) = None) by (cbn; destruct (NilEmpty.uint_of_string t); reflexivity). rewrite NI. reflexivity. }
      destruct AE as (x & ->). cbn [String.eqb Ascii.eqb Bool.eqb]. rewrite before_last_app, words_ints, atoms_ints. reflexivity. }
    rewrite A. cbn [bind]. rewrite all_ints_map. reflexivity.
Qed.

Lemma zsafe_lists : safe_lists xbase zsafe.
Proof.
  intros fs. unfold zsafe. split; [constructor; [rewrite nodup_In; apply remove_In|apply NoDup_nodup]|]. split.
  - intros f I. destruct (Nat.eq_dec f 0) as [ -> |N]; [now left|]. right. apply nodup_In. apply in_in_remove; [exact N|exact I].
  - intros i f g E B. exists 0%nat. destruct i as [|i]; [cbn in E; injection E as <-; discriminate|]. split; [lia|]. destruct f as [|f]; [discriminate|]. injection B as <-. reflexivity.
Qed.
Lemma zpython : python vrepr zeval VNone VInt as_vint is_vnone Nat.eqb zshow_ints zeval_ints show_int zparse (fun z => z).
Proof.
  constructor.
  - intros f g. apply Nat.eqb_eq.
  - repeat split.
  - intros z. split; [|split; reflexivity]. destruct (vint_text z) as (_ & A). split; [apply zeval_int|exact A].
  - intros z. destruct (int_digits z) as [H N]. apply (digits_text _ H N).
  - intros t v. unfold zeval. now rewrite rstrip_blank.
  - apply zints.
  - reflexivity.
  - intros z. split; [apply int_word|]. split; [|unfold zparse; now rewrite TracerProps.eval_show].
    destruct (int_digits z) as [H N]. destruct (show_int z) as [|c t]; [contradiction|]. cbn [all_chars] in H. apply andb_true_iff in H as [H1 _]. apply existsb_exists in H1 as (x & Hx & E). apply Ascii.eqb_eq in E. subst x. cbn [In] in Hx. repeat (destruct Hx as [<-|Hx]; [reflexivity|]). destruct Hx.
Qed.

(** Two peak functions, one initial peak, a baseline, and a result *)
Definition zbase : @part val nat := mkPart 5%nat [VInt 1; VInt 0; VInt 7] [VBool true; VBool false; VBool true] (VBool false) (VBool false).
Definition zmc : @mc val nat := mkMc (Some [0%nat; 1%nat]) (Some "AIC") "slice(0, 2, None)" (Some zbase) [xpart; xpart] ["1 2 3"; "2 3 4"].
Definition zmore (k : string) : val := if String.eqb k "filename" then VStr "a.gr" else if String.eqb k "nyquist" then VBool true else VInt 2.
Definition zext (edy : option (list Z)) (cres : option Z) : @extraction val nat Z :=
  mkE (Some [1%nat; 0%nat]) (Some [xpart; xpart]) (BvPart zbase) cres (Some "AIC") (VList [VInt 0; VInt 10]) (Some [1; 2; 3]) (Some [4; 5; 6]) None (Some [7; 8; 9]) edy (VStr "peaks") (Some zmc) zmore.
Definition zwrite := writestr (N := Z) vrepr VNone VInt VStr xclass xmodule xbase xmeta vrepr Nat.eqb zsafe zshow_ints show_int.
Example C198_nonvacuous :
  (forall f g, Nat.eqb f g = true <-> f = g) /\ closed_list xbase zsafe /\
  (exists s, zwrite (Some (pdf_metadata vrepr)) "t" "u" "v" (zext None (Some 3)) = Ok s) /\
  zwrite (Some (pdf_metadata vrepr)) "t" "u" "v" (zext None None) = Err TypeError /\
  zwrite (Some (pdf_metadata vrepr)) "t" "u" "v" (zext (Some [1; 2; 3; 4]) (Some 3)) = Err IndexError /\
  (exists s, zwrite (Some (pdf_metadata vrepr)) "t" "u" "v" (zext (Some [1]) (Some 3)) = Ok s).
Proof.
  split; [intros; apply Nat.eqb_eq|]. split.
  { intros fs. destruct (zsafe_lists fs) as (_ & A & B). split; [exact A|]. intros f g I E. apply In_nth_error in I as (i & Ei). destruct (B i f g Ei E) as (j & _ & J). exact (nth_error_In _ _ J). }
  split; [eexists; vm_compute; reflexivity|]. split; [vm_compute; reflexivity|]. split; [vm_compute; reflexivity|]. eexists. vm_compute. reflexivity.
Qed.
Example C199_nonvacuous : zwrite None "t" "u" "v" (zext None (Some 3)) = Err TypeError.
Proof. vm_compute. reflexivity. Qed.
Example C200_nonvacuous :
  let e := zext (Some [1; 1; 2]) (Some 3) in
  python vrepr zeval VNone VInt as_vint is_vnone Nat.eqb zshow_ints zeval_ints show_int zparse (fun z => z) /\ safe_lists xbase zsafe /\
  savable_extraction vrepr zeval VStr is_vnone xclass xmodule xbase xmeta vrepr xconstruct (fun _ => 3%nat) as_vlist (fun v => v) VList zsafe xclone e /\
  e_method e = Some "AIC" /\ word "AIC" /\
  (do s <- zwrite (Some (pdf_metadata vrepr)) "t" "u" "v" e;
   do e' <- readstr zeval VInt as_vint is_vnone xconstruct (fun _ => 3%nat) as_vlist (fun v => v) zeval_ints zparse (VBool true) (VBool false)
     (fun ws => Ok (existsb (String.eqb "edy") ws)) (fun n => Ok n) (fun _ _ _ => Ok zmc) (fun _ => VNone) s;
   Ok (e_pf e', e_initial e', e_baseline e', e_cres e', e_edy e', map (e_more e') pdf_attributes)) =
   Ok (Some [3%nat; 2%nat], Some [mkPart 2%nat (part_pars xpart) (part_free xpart) (VBool true) (VBool false); mkPart 2%nat (part_pars xpart) (part_free xpart) (VBool true) (VBool false)],
       BvPart (mkPart 3%nat (part_pars zbase) (part_free zbase) (VBool false) (VBool false)), Some 3, Some [1; 1; 2], map zmore pdf_attributes).
Proof.
  split; [apply zpython|]. split; [apply zsafe_lists|].
  assert (LR : forall l, zeval (list_text vrepr l) = Ok (VList l) -> (forall v, In v l -> one_line (vrepr v)) -> list_round_trips vrepr zeval is_vnone as_vlist VList l) by (intros l H1 H2; repeat split; assumption).
  assert (SX : savable_part vrepr zeval is_vnone (fun _ => 3%nat) as_vlist (fun v => v) VList xpart).
  { split; [repeat split|]. split; [apply LR; [vm_compute; reflexivity|intros v [<-|[<-|[<-|[]]]]; reflexivity]|]. split; [apply LR; [vm_compute; reflexivity|intros v [<-|[<-|[<-|[]]]]; reflexivity]|]. repeat split. }
  assert (SZ : savable_part vrepr zeval is_vnone (fun _ => 3%nat) as_vlist (fun v => v) VList zbase).
  { split; [repeat split|]. split; [apply LR; [vm_compute; reflexivity|intros v [<-|[<-|[<-|[]]]]; reflexivity]|]. split; [apply LR; [vm_compute; reflexivity|intros v [<-|[<-|[<-|[]]]]; reflexivity]|]. repeat split. }
  split.
  - split; [|split; [|split; [|split; [|split; [|split; [|split; [|split]]]]]]].
    + intros f _. assert (FF : describable vrepr zeval VStr xclass xmodule xmeta vrepr f /\ plain_keys xmeta f).
      { unfold describable, plain_keys, text_of. destruct f as [|f]; cbn [xclass xmodule xmeta map fst].
        - split; [|intros k v [I|[]]; injection I as <- <-; reflexivity]. split; [split; [reflexivity|split; reflexivity]|]. split; [split; [reflexivity|split; reflexivity]|]. split; [constructor; [intros []|constructor]|].
          intros k v [I|[]]. injection I as <- <-. split; [split; [discriminate|reflexivity]|]. split; [cbn; intuition discriminate|]. split; [reflexivity|split; reflexivity].
        - split; [|intros k v [I|[I|[I|[]]]]; injection I as <- <-; reflexivity]. split; [split; [reflexivity|split; reflexivity]|]. split; [split; [reflexivity|split; reflexivity]|]. split; [repeat (constructor; [cbn; intuition discriminate|]); constructor|].
          intros k v [I|[I|[I|[]]]]; injection I as <- <-; (split; [split; [discriminate|reflexivity]|]; split; [cbn; intuition discriminate|]; split; [reflexivity|split; reflexivity]). }
      split; [apply FF|]. split; [apply FF|]. intros b _. split; reflexivity.
    + intros ps p E I. injection E as <-. destruct I as [<-|[<-|[]]]; exact SX.
    + intros p E. injection E as <-. exact SZ.
    + discriminate.
    + split; reflexivity.
    + split; reflexivity.
    + intros k I. cbn in I. repeat (destruct I as [<-|I]; [split; reflexivity|]). destruct I.
    + intros a I. cbn in I. repeat (destruct I as [I|I]; [first [discriminate I|injection I as <-; reflexivity]|]). destruct I.
    + intros m E. injection E as <-. split; [discriminate|]. split; [reflexivity|]. split; [intros n E; injection E as <-; reflexivity|]. split; [intros l [<-|[<-|[]]]; reflexivity|]. split; [intros p [<-|[<-|[]]]; exact SX|]. intros p E. injection E as <-. exact SZ.
  - split; [reflexivity|]. split; [split; [discriminate|reflexivity]|]. vm_compute. reflexivity.
Qed.

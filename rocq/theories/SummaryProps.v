(** Properties C161 and C162: metadata and the summary of extracted peaks. *)
From Coq Require Import String Ascii Permutation Sorting Reals.
From Verif Require Import Prelude Functions FunctionsProofs FunctionsProps Tracer TracerProps Serial SerialProps Summary.
Open Scope string_scope.

(** ** C161 *)
Lemma join_newline ls : ls <> [] -> join newline ls ++ newline = join newline (ls ++ [""])%list.
Proof.
  induction ls as [|l r IH]; intros N; [contradiction|]. destruct r as [|l2 r]; [reflexivity|].
  change (join newline (l :: l2 :: r)) with (l ++ newline ++ join newline (l2 :: r)).
  change (join newline ((l :: l2 :: r) ++ [""])%list) with (l ++ newline ++ join newline ((l2 :: r) ++ [""])%list).
  rewrite <- IH by discriminate. rewrite !app_assoc_s. reflexivity.
Qed.
Lemma split_written ls : ls <> [] -> (forall l, In l ls -> no_lf l) -> split_nl "" (join newline ls ++ newline) = (ls ++ [""])%list.
Proof.
  intros N H. rewrite join_newline by exact N. apply split_nl_join.
  - intros C. apply app_eq_nil in C as [_ C]. discriminate.
  - intros l Hl. apply in_app_or in Hl. destruct Hl as [Hl|[<-|[]]]; [now apply H|reflexivity].
Qed.
Lemma no_lf_app a b : no_lf a -> no_lf b -> no_lf (a ++ b).
Proof.
  unfold no_lf. induction a as [|c a IH]; intros HA HB; [exact HB|]. cbn [append all_chars] in *. apply andb_true_iff in HA as [H1 H2]. rewrite H1. now apply IH.
Qed.

(** The attributes a PDFPeakExtraction adds to a PeakExtraction and that are saved with it. *)
Definition pdf_attributes : list string :=
  ["filename"; "nyquist"; "qmax"; "qmax_reportedbypdf"; "qmax_fromdata"; "scale"; "supersample"].
Section C161.
Context {V : Type}.
Variable repr : V -> string.
Variable eval : string -> result V.

(** What is written is read: the seven attributes, and no other. *)
Theorem C161_round_trip :
  forall o o' : string -> V,
    (forall k, In k pdf_attributes -> no_lf (repr (o k)) /\ eval (strip (repr (o k))) = Ok (o k)) ->
    exists o2, readmetadata eval o' (writemetadata repr o) = (o2, Ok tt) /\
      (forall k, In k pdf_attributes -> o2 k = o k) /\ (forall k, ~ In k pdf_attributes -> o2 k = o' k).
Proof.
  change pdf_attributes with meta_names. intros o o' H. unfold readmetadata, writemetadata. rewrite split_written.
  2: discriminate.
  2: { intros l Hl. apply in_map_iff in Hl as (k & <- & Hk). apply no_lf_app; [|apply no_lf_app; [reflexivity|now apply H]]. cbn [meta_names In] in Hk. repeat destruct Hk as [<-|Hk]; try reflexivity. destruct Hk. }
  set (ml := map (fun k => k ++ "=" ++ repr (o k)) meta_names).
  assert (EV : forall k, In k meta_names -> eval (strip (repr (o k))) = Ok (o k)) by (intros k Hk; now apply H).
  assert (F : forall k, In k meta_names -> field k (ml ++ [""])%list = Some (repr (o k))).
  { intros k Hk. cbn [meta_names In] in Hk. repeat destruct Hk as [<-|Hk]; try reflexivity. destruct Hk. }
  set (ls := (ml ++ [""])%list) in *. clearbody ls.
  assert (G : forall ks o1, (forall k, In k ks -> In k meta_names) ->
     exists o2, read_fields eval ks ls o1 = (o2, Ok tt) /\ (forall k, In k ks -> o2 k = o k) /\ (forall k, ~ In k ks -> o2 k = o1 k)).
  { induction ks as [|k ks IH]; intros o1 HK; [exists o1; repeat split; auto; intros k []|]. cbn [read_fields].
    rewrite F, EV by (apply HK; now left). destruct (IH (setattr o1 k (o k))) as (o2 & E & A & B); [intros; apply HK; now right|].
    exists o2. split; [exact E|]. split.
    - intros k' [<-|Hk']; [|now apply A]. destruct (in_dec string_dec k ks) as [I|I]; [now apply A|]. rewrite B by exact I. unfold setattr. now rewrite String.eqb_refl.
    - intros k' NI. rewrite B by (intros C; apply NI; now right). unfold setattr. destruct (String.eqb_spec k' k) as [->|]; [exfalso; apply NI; now left|reflexivity]. }
  apply G. auto.
Qed.

(** Reading any text: the attributes are set one after the other until a field is missing
    (SrMiseDataFormatError) or its text cannot be evaluated (that error); those before it
    have been replaced then, all others keep their values. *)
Theorem C161_any_text :
  forall (o o' : string -> V) (text : string) r,
    readmetadata eval o text = (o', r) ->
    exists done rest, pdf_attributes = (done ++ rest)%list /\
      (forall k, In k done -> exists t, field k (split_nl "" text) = Some t /\ eval (strip t) = Ok (o' k)) /\
      (forall k, ~ In k done -> o' k = o k) /\
      match rest with
      | [] => r = Ok tt
      | k :: _ => match field k (split_nl "" text) with None => r = Err DataFormatError | Some t => exists e, eval (strip t) = Err e /\ r = Err e end
      end.
Proof.
  change pdf_attributes with meta_names. intros o o' text r H. unfold readmetadata in H. set (ls := split_nl "" text) in *. clearbody ls.
  assert (ND : NoDup meta_names).
  { unfold meta_names. repeat (constructor; [cbn [In]; intros C; repeat destruct C as [C|C]; try discriminate; exact C|]). constructor. }
  revert o H. generalize meta_names as ks, ND. clear ND. intros ks. induction ks as [|k ks IH]; intros ND o H; cbn [read_fields] in H.
  - injection H as <- <-. exists [], []. repeat split; auto. intros k [].
  - destruct (field k ls) as [t|] eqn:F.
    + destruct (eval (strip t)) as [v|e] eqn:E.
      * inversion ND as [|? ? NI ND']; subst. destruct (IH ND' _ H) as (dn & rest & EQ & A & B & C). exists (k :: dn), rest. split; [now rewrite EQ|]. split; [|split; [|exact C]].
        -- intros k' [<-|Hk']; [|now apply A]. exists t. split; [exact F|]. rewrite B.
           ++ unfold setattr. now rewrite String.eqb_refl.
           ++ intros I. apply NI. rewrite EQ. apply in_or_app. now left.
        -- intros k' NK. rewrite B by (intros I; apply NK; now right). unfold setattr. destruct (String.eqb_spec k' k) as [->|]; [exfalso; apply NK; now left|reflexivity].
      * injection H as <- <-. exists [], (k :: ks). split; [reflexivity|]. split; [intros k' []|]. split; [auto|]. rewrite F. exists e. auto.
    + injection H as <- <-. exists [], (k :: ks). split; [reflexivity|]. split; [intros k' []|]. split; [auto|]. now rewrite F.
Qed.
End C161.

(** An instance: texts in quotes. *)
Definition ex_repr (s : string) : string := "'" ++ s ++ "'".
Definition ex_eval (s : string) : result string := match s with String _ r => Ok (String.substring 0 (String.length r - 1) r) | "" => Err DataFormatError end.
Definition ex_obj (k : string) : string := if String.eqb k "filename" then "qmax=5 a.gr" else if String.eqb k "qmax" then "21.3" else "None".
Example C161_example :
  (forall k, In k meta_names -> no_lf (ex_repr (ex_obj k)) /\ ex_eval (strip (ex_repr (ex_obj k))) = Ok (ex_obj k)) /\
  snd (readmetadata ex_eval (fun _ => "") ("filename='a'" ++ newline ++ "qmax='3'")) = Err DataFormatError /\
  fst (readmetadata ex_eval (fun _ => "") ("filename='a'" ++ newline ++ "qmax='3'")) "filename" = "a".
Proof.
  split; [|split; reflexivity]. intros k Hk. cbn [meta_names In] in Hk. repeat destruct Hk as [<-|Hk]; try (split; vm_compute; reflexivity). destruct Hk.
Qed.

(** ** C162 *)
Section C162.
Variable base : nat -> option nat.
Variable depth : nat.
Variable rank : nat -> nat.
Context {P T : Type}.
Variable list_of_set : list nat -> list nat.
Variable to_pwa : nat -> P -> result (T * T * T).
Variable pardict : nat -> list (string * nat).
Variable values : P -> list T.

(** A table of functions: line i carries the index i, no function occurs twice, exactly the
    functions in [used] and those they decorate occur, and the base of a function is named by
    the index of an earlier line. *)
Definition good_table (used : nat -> Prop) (t : list fline) : Prop :=
  (forall i l, nth_error t i = Some l -> fst (fst l) = i) /\
  NoDup (map (fun l => snd (fst l)) t) /\
  (forall x, In x (map (fun l => snd (fst l)) t) <-> exists f, used f /\ needs base f x) /\
  (forall i f b, nth_error t i = Some (i, f, b) ->
     match base f, b with
     | None, None => True
     | Some g, Some j => (j < i)%nat /\ exists b', nth_error t j = Some (j, g, b')
     | _, _ => False
     end).

Lemma ftable_spec all : forall l i, (forall f g, In f l -> base f = Some g -> In g all) ->
  exists t, ftable base all i l = Ok t /\ List.length t = List.length l /\
    forall k f, nth_error l k = Some f -> nth_error t k = Some ((i + k)%nat, f, match base f with None => None | Some g => index_of g all end).
Proof.
  induction l as [|f l IH]; intros i H; [exists []; repeat split; auto; intros [|k] f Hk; discriminate|].
  destruct (IH (S i)) as (t & E & L & F); [intros f' g Hf; apply H; now right|]. cbn [ftable].
  assert (I : forall g all', In g all' -> exists j, index_of g all' = Some j).
  { intros g all'. induction all' as [|a r IHr]; intros HI; [destruct HI|]. cbn [index_of]. destruct (Nat.eqb_spec g a); [eauto|]. destruct HI as [->|HI]; [contradiction|]. destruct (IHr HI) as (j & ->). cbn. eauto. }
  assert (SB : exists b, match base f with None => Ok None | Some g => match index_of g all with None => Err ValueError | Some j => Ok (Some j) end end = Ok b /\ b = match base f with None => None | Some g => index_of g all end).
  { destruct (base f) as [g|] eqn:B; [|eauto]. destruct (I g all (H f g (or_introl eq_refl) B)) as (j & ->). eauto. }
  destruct SB as (b & EB & VB). rewrite EB. cbn [bind]. rewrite E. cbn [bind]. exists ((i, f, b) :: t). split; [reflexivity|]. split; [cbn; now rewrite L|].
  intros [|k] f' Hk; [injection Hk as <-; cbn [nth_error]; now rewrite Nat.add_0_r, VB|]. cbn [nth_error] in Hk |- *. rewrite (F k f' Hk). now rewrite Nat.add_succ_comm.
Qed.
Lemma map_nth_eq {A B} (g : A -> B) t l : List.length t = List.length l -> (forall k f, nth_error l k = Some f -> exists a, nth_error t k = Some a /\ g a = f) -> map g t = l.
Proof.
  revert l. induction t as [|a t IH]; intros [|f l] L H; try discriminate; [reflexivity|]. destruct (H 0%nat f eq_refl) as (a' & E & G). injection E as <-. cbn. rewrite G. f_equal. apply IH; [cbn in L; lia|]. intros k f' Hk. exact (H (S k) f' Hk).
Qed.
Lemma ftable_good used s :
  NoDup s -> (forall x, In x s <-> exists f, used f /\ needs base f x) ->
  (forall i f g, nth_error s i = Some f -> base f = Some g -> exists j, (j < i)%nat /\ nth_error s j = Some g) ->
  exists t, ftable base s 0 s = Ok t /\ good_table used t /\ map (fun l => snd (fst l)) t = s.
Proof.
  intros ND IN ORD. destruct (ftable_spec s s 0%nat) as (t & E & L & F).
  { intros f g Hf B. destruct (In_nth_error _ _ Hf) as (i & Hi). destruct (ORD i f g Hi B) as (j & _ & Hj). eapply nth_error_In; eauto. }
  exists t. split; [exact E|].
  assert (M : map (fun l => snd (fst l)) t = s).
  { apply map_nth_eq; [exact L|]. intros k f Hk. eexists. split; [exact (F k f Hk)|reflexivity]. }
  split; [|exact M]. unfold good_table. rewrite M.
  assert (INV : forall i l, nth_error t i = Some l -> exists f, nth_error s i = Some f /\ l = (i, f, match base f with None => None | Some g => index_of g s end)).
  { intros i l Hl. assert (i < List.length s)%nat by (rewrite <- L; apply nth_error_Some; congruence). destruct (nth_error s i) as [f|] eqn:Hf; [|apply nth_error_None in Hf; lia]. exists f. split; [reflexivity|]. rewrite (F i f Hf) in Hl. injection Hl as <-. reflexivity. }
  split; [|split; [exact ND|split; [exact IN|]]].
  - intros i l Hl. destruct (INV i l Hl) as (f & _ & ->). reflexivity.
  - intros i f b Hl. destruct (INV i _ Hl) as (f' & Hf & EQ). injection EQ as <- ->. destruct (base f) as [g|] eqn:B; [|exact I].
    destruct (ORD i f g Hf B) as (j & Hj & Hg). rewrite (index_of_spec g s j ND Hg). split; [exact Hj|]. eexists. apply (F j g Hg).
Qed.
Lemma plines_spec all : forall ps, (forall f p, In (f, p) ps -> In f all) -> (forall f p, In (f, p) ps -> exists v, to_pwa f p = Ok v) ->
  exists t, plines to_pwa all ps = Ok t /\ List.length t = List.length ps /\
    forall k f p, nth_error ps k = Some (f, p) -> exists v j, nth_error t k = Some (v, j) /\ to_pwa f p = Ok v /\ nth_error all j = Some f.
Proof.
  assert (I : forall (g : nat) all', In g all' -> exists j, index_of g all' = Some j /\ nth_error all' j = Some g).
  { intros g all'. induction all' as [|a r IHr]; intros HI; [destruct HI|]. cbn [index_of]. destruct (Nat.eqb_spec g a) as [->|]; [exists 0%nat; auto|]. destruct HI as [->|HI]; [contradiction|]. destruct (IHr HI) as (j & -> & Hj). exists (S j). auto. }
  induction ps as [|[f p] ps IH]; intros HA HV; [exists []; repeat split; auto; intros [|k] f p Hk; discriminate|].
  destruct IH as (t & E & L & F); [intros; eapply HA; right; eauto|intros; eapply HV; right; eauto|].
  destruct (HV f p (or_introl eq_refl)) as (v & EV). destruct (I f all (HA f p (or_introl eq_refl))) as (j & EJ & NJ).
  cbn [plines]. rewrite EV. cbn [bind]. rewrite EJ. cbn [bind]. rewrite E. cbn [bind]. exists ((v, j) :: t). split; [reflexivity|]. split; [cbn; now rewrite L|].
  intros [|k] f' p' Hk; [injection Hk as <- <-; exists v, j; auto|]. exact (F k f' p' Hk).
Qed.

(** *** Labels *)
Definition le_idx (a b : string * nat) : Prop := (snd a <= snd b)%nat.
Lemma linsert_perm a l : Permutation (linsert a l) (a :: l).
Proof. induction l as [|b l IH]; [reflexivity|]. cbn [linsert]. destruct (snd a <=? snd b)%nat; [reflexivity|]. rewrite IH. apply perm_swap. Qed.
Lemma linsert_sorted a l : StronglySorted le_idx l -> StronglySorted le_idx (linsert a l).
Proof.
  induction l as [|b l IH]; intros H; [repeat constructor|]. cbn [linsert]. destruct (Nat.leb_spec (snd a) (snd b)) as [L|L].
  - constructor; [exact H|]. constructor; [exact L|]. inversion H as [|? ? _ F]; subst. rewrite Forall_forall in *. intros x Hx. specialize (F x Hx). unfold le_idx in *. lia.
  - inversion H as [|? ? S F]; subst. constructor; [now apply IH|]. rewrite Forall_forall in *. intros x Hx.
    apply (Permutation_in _ (linsert_perm a l)) in Hx. destruct Hx as [<-|Hx]; [unfold le_idx; lia|now apply F].
Qed.
Lemma lsort_spec d : Permutation (fold_right linsert [] d) d /\ StronglySorted le_idx (fold_right linsert [] d).
Proof.
  induction d as [|a d (PM & S)]; [split; constructor|]. cbn [fold_right]. split; [rewrite linsert_perm; now constructor|now apply linsert_sorted].
Qed.
Lemma sorted_seq (l : list nat) : forall s, StronglySorted le l -> Permutation l (seq s (List.length l)) -> l = seq s (List.length l).
Proof.
  induction l as [|a l IH]; intros s SS PM; [reflexivity|]. cbn [List.length seq] in *. inversion SS as [|? ? S' F]; subst. rewrite Forall_forall in F.
  assert (a = s) as ->.
  { assert (IA : In a (s :: seq (S s) (List.length l))) by (eapply Permutation_in; [exact PM|now left]).
    assert (IS : In s (a :: l)) by (eapply Permutation_in; [symmetry; exact PM|now left]).
    destruct IS as [->|IS]; [reflexivity|]. specialize (F s IS). destruct IA as [->|IA]; [reflexivity|]. apply in_seq in IA. lia. }
  f_equal. apply IH; [exact S'|]. eapply Permutation_cons_inv; exact PM.
Qed.
(** The labels name the parameters in their order. *)
Lemma labels_ok d : Permutation (map snd d) (seq 0 (List.length d)) ->
  List.length (labels d) = List.length d /\ forall name i, In (name, i) d -> nth_error (labels d) i = Some name.
Proof.
  intros PM. destruct (lsort_spec d) as (PS & S). unfold labels. set (s := fold_right linsert [] d) in *.
  assert (LS : List.length s = List.length d) by (now apply Permutation_length). split; [now rewrite map_length|].
  assert (E : map snd s = seq 0 (List.length s)).
  { rewrite <- (map_length snd s). apply sorted_seq.
    - clear - S. induction S as [|a l S IH F]; cbn; [constructor|]. constructor; [exact IH|]. rewrite Forall_forall in *. intros x Hx. apply in_map_iff in Hx as (y & <- & Hy). exact (F y Hy).
    - rewrite map_length, LS, <- PM. now apply Permutation_map. }
  intros name i HI. assert (IN : In (name, i) s) by (eapply Permutation_in; [symmetry; exact PS|exact HI]).
  destruct (In_nth_error _ _ IN) as (k & Hk). assert (KL : (k < List.length s)%nat) by (apply nth_error_Some; congruence).
  assert (K : nth_error (map snd s) k = Some i) by (rewrite nth_error_map, Hk; reflexivity).
  rewrite E, (nth_error_nth' _ 0%nat), seq_nth in K by (rewrite ?seq_length; exact KL). injection K as <-. cbn. rewrite nth_error_map, Hk. reflexivity.
Qed.

Theorem C162_summary :
  (forall l x, In x (list_of_set l) <-> In x l) ->
  (forall f g, base f = Some g -> (rank g < rank f)%nat) -> (forall f, (rank f < depth)%nat) ->
  forall s : @input P,
    let run := writepwa base depth list_of_set to_pwa pardict values s in
    (i_extracted s = None -> run = Err GenericException) /\
    (forall e f, i_extracted s = Some e -> i_baseline s = BFunction f -> run = Err TypeError) /\
    (forall e, i_extracted s = Some e -> (forall f, i_baseline s <> BFunction f) ->
       (forall f p, In (f, p) (x_peaks e) -> exists v, to_pwa f p = Ok v) ->
       exists out, run = Ok out /\
         (* counts *)
         s_nfree out = x_nfree e /\ s_npoints out = x_npoints e /\
         s_bfree out = match i_baseline s with BPart _ n => n | _ => 0%nat end /\
         (* one line per extracted peak, in order: position, width, area and its function *)
         List.length (s_peaks out) = List.length (x_peaks e) /\
         (forall k f p, nth_error (x_peaks e) k = Some (f, p) -> exists v j b,
            nth_error (s_peaks out) k = Some (v, j) /\ to_pwa f p = Ok v /\ nth_error (s_pf out) j = Some (j, f, b)) /\
         good_table (fun f => In f (opt (i_pf s)) \/ In f (opt (i_initial s)) \/ In f (x_funcs e) \/ exists p, In (f, p) (x_peaks e)) (s_pf out) /\
         (* the fitted baseline with its function *)
         match x_baseline e, s_baseline out with
         | None, None => True
         | Some (f, p), Some (pars, j) => (exists b, nth_error (s_bf out) j = Some (j, f, b)) /\
             pars = match pardict f with [] => None | d => Some (labels d, values p) end
         | _, _ => False
         end /\
         good_table (fun f => (exists n, i_baseline s = BPart f n) \/ exists p, x_baseline e = Some (f, p)) (s_bf out)).
Proof.
  intros HS HR HD s. cbv zeta. unfold writepwa. split; [intros ->; reflexivity|]. split; [intros e f -> ->; reflexivity|].
  intros e HE HB HP. rewrite HE. set (bs := i_baseline s) in *.
  set (allpf := (opt (i_pf s) ++ opt (i_initial s) ++ x_funcs e ++ map fst (x_peaks e))%list).
  set (allbf := (match bs with BNone => [] | BFunction f => [f] | BPart f _ => [f] end ++ match x_baseline e with None => [] | Some (f, _) => [f] end)%list).
  assert (SAFE : forall l, exists m, safe base depth list_of_set l = Ok m /\ NoDup m /\
     (forall x, In x m <-> exists f, In f l /\ needs base f x) /\ (forall i f g, nth_error m i = Some f -> base f = Some g -> exists j, (j < i)%nat /\ nth_error m j = Some g)).
  { intros l. destruct (C19_safe_list base rank depth (list_of_set l) HR) as (m & E & ND & IN & ORD); [auto|]. exists m. unfold safe. rewrite E. split; [reflexivity|]. split; [exact ND|]. split; [|exact ORD].
    intros x. rewrite IN. split; intros (f & Hf & Hn); exists f; (split; [now apply HS|exact Hn]). }
  destruct (SAFE allpf) as (mp & EP & NP & IP & OP). destruct (SAFE allbf) as (mb & EB & NB & IB & OB).
  set (upf := fun f => In f (opt (i_pf s)) \/ In f (opt (i_initial s)) \/ In f (x_funcs e) \/ exists p, In (f, p) (x_peaks e)).
  set (ubf := fun f => (exists n, bs = BPart f n) \/ exists p, x_baseline e = Some (f, p)).
  assert (UP : forall f, upf f <-> In f allpf).
  { intros f. unfold upf, allpf. rewrite !in_app_iff, in_map_iff. split.
    - intros [H|[H|[H|(p & H)]]]; auto. right. right. right. exists (f, p). auto.
    - intros [H|[H|[H|((f' & p) & E & H)]]]; auto. cbn in E. subst f'. right. right. right. eauto. }
  assert (UB : forall f, ubf f <-> In f allbf).
  { intros f. unfold ubf, allbf. rewrite in_app_iff. split.
    - intros [(n & ->)|(p & ->)]; [left; now left|right; now left].
    - intros [H|H].
      + left. destruct bs as [|g|g n]; [destruct H|exfalso; now apply (HB g)|]. destruct H as [->|[]]. eauto.
      + right. destruct (x_baseline e) as [(g & p)|]; [|destruct H]. destruct H as [->|[]]. eauto. }
  destruct (ftable_good upf mp NP) as (tp & ETP & GP & MP); [|exact OP|].
  { intros x. rewrite IP. split; intros (f & Hf & Hn); exists f; (split; [now apply UP|exact Hn]). }
  destruct (ftable_good ubf mb NB) as (tb & ETB & GB & MB); [|exact OB|].
  { intros x. rewrite IB. split; intros (f & Hf & Hn); exists f; (split; [now apply UB|exact Hn]). }
  destruct (plines_spec mp (x_peaks e)) as (tk & EK & LK & FK); [|exact HP|].
  { intros f p H. apply IP. exists f. split; [|apply needs_self]. apply UP. right. right. right. eauto. }
  assert (BF : exists n, match bs with BNone => Ok 0%nat | BFunction _ => Err TypeError | BPart _ n => Ok n end = Ok n /\ n = match bs with BPart _ n => n | _ => 0%nat end).
  { destruct bs as [|g|g n]; [eauto|exfalso; now apply (HB g)|eauto]. }
  destruct BF as (n & -> & VN). cbn [bind]. rewrite EP. cbn [bind]. rewrite EB. cbn [bind]. rewrite ETB. cbn [bind].
  assert (LINE : forall m t j f, map (fun l : fline => snd (fst l)) t = m -> (forall i l, nth_error t i = Some l -> fst (fst l) = i) -> nth_error m j = Some f -> exists b, nth_error t j = Some (j, f, b)).
  { intros m t j f <- FI HJ. rewrite nth_error_map in HJ. destruct (nth_error t j) as [[[i g] b]|] eqn:E; [|discriminate]. cbn in HJ. injection HJ as <-. pose proof (FI j _ E) as Q. cbn in Q. subst i. eauto. }
  assert (BL : exists bl, match x_baseline e with None => Ok None | Some (f, p) => do j <- match index_of f mb with None => Err ValueError | Some j => Ok j end; Ok (Some (match pardict f with [] => None | d => Some (labels d, values p) end, j)) end = Ok bl /\
     match x_baseline e, bl with None, None => True | Some (f, p), Some (pars, j) => (exists b, nth_error tb j = Some (j, f, b)) /\ pars = match pardict f with [] => None | d => Some (labels d, values p) end | _, _ => False end).
  { destruct (x_baseline e) as [(f & p)|] eqn:XB; [|exists None; auto].
    assert (IF : In f mb) by (apply IB; exists f; split; [apply UB; right; eauto|apply needs_self]). destruct (In_nth_error _ _ IF) as (j & Hj).
    rewrite (index_of_spec f mb j NB Hj). cbn [bind]. eexists. split; [reflexivity|]. cbn iota beta. split; [|reflexivity]. apply (LINE mb tb j f MB); [apply GB|exact Hj]. }
  destruct BL as (bl & EBL & HBL). rewrite EBL. cbn [bind]. rewrite ETP. cbn [bind]. rewrite EK. cbn [bind].
  eexists. split; [reflexivity|]. cbn [s_nfree s_npoints s_bfree s_peaks s_pf s_bf s_baseline].
  split; [reflexivity|]. split; [reflexivity|]. split; [exact VN|]. split; [exact LK|]. split; [|split; [exact GP|split; [exact HBL|exact GB]]].
  intros k f p Hk. destruct (FK k f p Hk) as (v & j & Ht & Hv & Hj). destruct (LINE mp tp j f MP) as (b & Hb); [apply GP|exact Hj|]. exists v, j, b. auto.
Qed.
Theorem C162_labels :
  forall d, Permutation (map snd d) (seq 0 (List.length d)) ->
    List.length (labels d) = List.length d /\ forall name i, In (name, i) d -> nth_error (labels d) i = Some name.
Proof. exact labels_ok. Qed.
End C162.

(** Two peaks of a rippled function (5 decorates 3), a baseline of function 9. *)
Example C162_example :
  writepwa (T := nat) ex_base 10 (fun l => nodup Nat.eq_dec l) (fun f p => Ok (p, f, 1%nat)) (fun f => if (f =? 9)%nat then [("slope", 1%nat); ("intercept", 0%nat)] else []) (fun p => [p])
    (mkIn (Some [4%nat]) None (BPart 9%nat 2%nat) (Some (mkEx [3%nat] [(5%nat, 7%nat); (3%nat, 8%nat)] (Some (9%nat, 6%nat)) 6 100)))
  = Ok (mkSum 6 2 100 [(0, 9, None)]%nat (Some (Some (["intercept"; "slope"], [6%nat]), 0%nat))
        [(0, 1, None); (1, 4, Some 0); (2, 3, Some 0); (3, 5, Some 2)]%nat
        [((7, 5, 1), 3); ((8, 3, 1), 2)]%nat).
Proof. vm_compute. reflexivity. Qed.

Print Assumptions C161_round_trip.
Print Assumptions C161_any_text.
Print Assumptions C162_summary.
Print Assumptions C162_labels.

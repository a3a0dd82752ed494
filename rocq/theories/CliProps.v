(** Properties C144-C152: the command line program. *)
From Coq Require Import Reals Lra String Ascii Sorted.
From Verif Require Import Prelude Evaluators EvaluatorsProps Vars VarsProps Baselines LoadProps Cli.
Open Scope R_scope.
Open Scope string_scope.

(** ** Specification *)
(** What a parameter text means: a number is a free parameter, a number followed by c a
    fixed one. *)
Definition reads (fl : string -> result R) (s : string) (p : R * bool) : Prop :=
  (exists s', s = s' ++ "c" /\ fl s' = Ok (fst p) /\ snd p = false) \/
  (s <> "" /\ (forall s', s <> s' ++ "c") /\ fl s = Ok (fst p) /\ snd p = true).
Definition is_max (m : R) (l : list R) : Prop := In m l /\ forall v, In v l -> v <= m.
Definition is_min (m : R) (l : list R) : Prop := In m l /\ forall v, In v l -> m <= v.

(** ** Lists of settings *)
Lemma chunks_names {V} (ks : list string) (cs : list (list (string * V))) :
  Forall2 (fun k c => c = []%list \/ exists v, c = [(k, v)]%list) ks cs -> NoDup ks ->
  NoDup (map fst (concat cs)) /\ (forall k, In k (map fst (concat cs)) -> In k ks) /\
  (forall i k c, nth_error ks i = Some k -> nth_error cs i = Some c -> forall v, In (k, v) (concat cs) <-> In (k, v) c).
Proof.
  induction 1 as [|k c ks cs HC HF IH]; intros ND.
  - split; [constructor|]. split; [intros k []|]. intros [|i] k c E; discriminate.
  - inversion ND as [|? ? N1 N2]; subst. destruct (IH N2) as (I1 & I2 & I3). cbn [concat]. rewrite map_app. split; [|split].
    + apply NoDup_app_intro; [|exact I1|].
      * destruct HC as [-> |(v & ->)]; [constructor|]. cbn. constructor; [intros []|constructor].
      * intros a Ha Hb. apply N1. destruct HC as [-> |(v & ->)]; [destruct Ha|]. destruct Ha as [<-|[]]. now apply I2.
    + intros a Ha. apply in_app_or in Ha as [Ha|Ha]; [|right; now apply I2]. destruct HC as [-> |(v & ->)]; [destruct Ha|]. destruct Ha as [<-|[]]. now left.
    + intros [|i] k' c' E1 E2 v; cbn in E1, E2.
      * injection E1 as <-. injection E2 as <-. rewrite in_app_iff. split; [intros [A|A]; [exact A|]|auto]. exfalso. apply N1, I2. apply in_map_iff. exists (k, v). auto.
      * rewrite in_app_iff, (I3 i k' c' E1 E2 v). split; [|auto]. intros [A|A]; [|exact A]. exfalso. apply N1. destruct HC as [-> |(w & ->)]; [destruct A|]. destruct A as [[= <- _]|[]]. now apply nth_error_In in E1.
Qed.
Lemma list_max_is a l : is_max (list_max (a :: l)) (a :: l).
Proof.
  unfold is_max, list_max. revert a. induction l as [|b l IH]; intros a; cbn [fold_left].
  - split; [now left|]. intros v [<-|[]]. lra.
  - destruct (IH (Rmax a b)) as (A & B). split.
    + destruct A as [A|A]; [|right; right; exact A]. rewrite <- A. destruct (Rle_dec a b); [rewrite Rmax_right by lra; right; now left|rewrite Rmax_left by lra; now left].
    + assert (M : Rmax a b <= fold_left Rmax l (Rmax a b)) by (apply B; now left). pose proof (Rmax_l a b). pose proof (Rmax_r a b).
      intros v [<-|[<-|I]]; [lra|lra|]. apply B. now right.
Qed.
Lemma list_min_is a l : is_min (list_min (a :: l)) (a :: l).
Proof.
  unfold is_min, list_min. revert a. induction l as [|b l IH]; intros a; cbn [fold_left].
  - split; [now left|]. intros v [<-|[]]. lra.
  - destruct (IH (Rmin a b)) as (A & B). split.
    + destruct A as [A|A]; [|right; right; exact A]. rewrite <- A. destruct (Rle_dec a b); [rewrite Rmin_left by lra; now left|rewrite Rmin_right by lra; right; now left].
    + assert (M : fold_left Rmin l (Rmin a b) <= Rmin a b) by (apply B; now left). pose proof (Rmin_l a b). pose proof (Rmin_r a b).
      intros v [<-|[<-|I]]; [lra|lra|]. apply B. now right.
Qed.
Lemma map_repeat_mult d m n : map (Rmult d) (repeat m n) = repeat (d * m) n.
Proof. induction n as [|n IH]; [reflexivity|]. cbn. now rewrite IH. Qed.
Lemma map_mult_1 l : map (Rmult 1) l = l.
Proof. induction l as [|a l IH]; [reflexivity|]. cbn. now rewrite IH, Rmult_1_l. Qed.
Lemma map_mult_0 l : map (Rmult 0) l = repeat 0 (List.length l).
Proof. induction l as [|a l IH]; [reflexivity|]. cbn. now rewrite IH, Rmult_0_l. Qed.

(** ** Texts ending in c *)
Lemma split_last_spec r : forall c a l, split_last c r = (a, l) -> String c r = a ++ String l "".
Proof.
  induction r as [|d r IH]; intros c a l E; cbn [split_last] in E.
  - injection E as <- <-. reflexivity.
  - destruct (split_last d r) as [a' l'] eqn:S. injection E as <- <-. specialize (IH d a' l' S). rewrite IH. reflexivity.
Qed.
Lemma append_last a b x y : a ++ String x "" = b ++ String y "" -> a = b /\ x = y.
Proof.
  revert b. induction a as [|c a IH]; intros [|d b] E.
  - injection E as ->. auto.
  - exfalso. destruct b; discriminate.
  - exfalso. destruct a; discriminate.
  - injection E as -> E. apply IH in E as [-> ->]. auto.
Qed.

Section CliProps.
Context {F BF EM PK X : Type}.
Variable L : lib F BF baseline EM PK.
Variable E : @env F BF EM PK X.
Notation value := (value F BF baseline EM PK X).
Notation obj := (obj F BF baseline EM PK X).

Lemma parse1_reads s p : parse1 E s = Ok p <-> reads (e_float E) s p.
Proof.
  destruct p as [v f]. unfold reads. cbn [fst snd]. destruct s as [|c r].
  - cbn [parse1]. split; [discriminate|]. intros [(s' & H & _)|(H & _)]; [destruct s'; discriminate|contradiction].
  - cbn [parse1]. destruct (split_last c r) as [a l] eqn:S. pose proof (split_last_spec r c a l S) as D. destruct (Ascii.eqb_spec l "c") as [->|N].
    + split.
      * intros H. left. exists a. split; [exact D|]. destruct (e_float E a); [|discriminate]. cbn [bind] in H. injection H as -> ->. auto.
      * intros [(s' & H & H1 & H2)|(_ & H & _)]; [|exfalso; exact (H a D)]. rewrite D in H. apply append_last in H as [-> _]. rewrite H1. cbn [bind]. now rewrite H2.
    + split.
      * intros H. right. split; [discriminate|]. split; [intros s' H'; rewrite D in H'; apply append_last in H' as [_ H']; contradiction|]. destruct (e_float E (String c r)); [|discriminate]. cbn [bind] in H. injection H as -> ->. auto.
      * intros [(s' & H & _)|(_ & _ & H1 & H2)]; [exfalso; rewrite D in H; apply append_last in H as [_ H]; contradiction|]. rewrite H1. cbn [bind]. now rewrite H2.
Qed.
Lemma parsepars_reads ps : forall l, parsepars E ps = Ok l <-> Forall2 (reads (e_float E)) ps l.
Proof.
  induction ps as [|p ps IH]; intros l; cbn [parsepars].
  - split; [intros [= <-]; constructor|]. intros H. inversion H. reflexivity.
  - split.
    + intros H. destruct (parse1 E p) as [v|] eqn:P; [|discriminate]. cbn [bind] in H. destruct (parsepars E ps) as [vs|] eqn:Q; [|discriminate]. cbn [bind] in H. injection H as <-. constructor; [now apply parse1_reads|now apply IH].
    + intros H. inversion H as [|? v ? vs H1 H2]; subst. apply parse1_reads in H1. apply IH in H2. now rewrite H1, H2.
Qed.

(** ** The run up to setvars *)
Lemma given_none s : given s = None <-> s = None \/ s = Some "".
Proof. destruct s as [[|c r]|]; cbn; intuition discriminate. Qed.
Lemma given_some s t : given s = Some t <-> s = Some t /\ t <> "".
Proof.
  destruct s as [[|c r]|]; cbn; split; try discriminate.
  - intros ([= <-] & H). contradiction.
  - intros [= <-]. split; [reflexivity|discriminate].
  - intros (H & _). exact H.
  - intros (H & _). exact H.
Qed.
Lemma nonzero_some o v : nonzero o = Some v <-> o = Some v /\ v <> 0.
Proof. destruct o as [w|]; cbn; [|intuition discriminate]. destruct (Req_EM_T w 0); split; try discriminate; [intros ([= ->] & H); contradiction|intros [= <-]; auto|intros (H & _); exact H]. Qed.
Lemma nonzero_none o : nonzero o = None <-> o = None \/ o = Some 0.
Proof. destruct o as [w|]; cbn; [|intuition]. destruct (Req_EM_T w 0) as [->|N]; split; try discriminate; [auto|auto|]. intros [H|[= H]]; [discriminate|contradiction]. Qed.

Lemma pick_none {A} m text (r : string -> result A) : existsb (String.eqb m) visible = false -> pick_module m text r = match given text with None => Goes None | Some _ => Declined end.
Proof. intros H. unfold pick_module, eval_module. rewrite H. reflexivity. Qed.

(** The settings made by the options, in the loaded object. *)
Definition after (kw : list (string * value)) (o o1 : obj) : Prop :=
  same_data o o1 /\ (forall k v, In (k, v) kw -> o_attr o1 k = v) /\ (forall k, ~ In k (map fst kw) -> o_attr o1 k = o_attr o k).
Definition loaded (file : string) x y dx dy q (o : obj) : Prop :=
  o_x o = Some x /\ o_y o = y /\ o_dx o = dx /\ o_dy o = dy /\ o_attr o "qmax_reportedbypdf" = VNum q /\
  o_attr o "qmax_fromdata" = match find_qmax L x y with Ok q' => VNum q' | Err _ => VNone end /\ o_attr o "filename" = VStr file /\
  (forall k, In k pdf_vars -> o_attr o k = VNone) /\ o_attr o "extracted" = VNone /\ o_attr o "extraction_type" = VNone.

Definition key_order : list string := ["pf"; "baseline"; "cres"; "effective_dy"; "rng"; "qmax"; "nyquist"; "supersample"; "scale"; "error_method"].
Lemma key_nodup : NoDup key_order.
Proof. unfold key_order. repeat constructor; cbn; intuition discriminate. Qed.
Lemma opt_kw_shape k (v : option value) : opt_kw k v = []%list \/ exists w, opt_kw k v = [(k, w)]%list.
Proof. destruct v; [right; eexists|left]; reflexivity. Qed.
Lemma uncertainties_shape op (o : obj) l : uncertainties E op o = Ok l -> l = []%list \/ exists w, l = [("effective_dy", VArr w)]%list.
Proof.
  unfold uncertainties. set (mode := match op_dgmode op with Some m => m | None => _ end). clearbody mode.
  destruct (match op_dg op with Some d => Some d | None => dg_default mode end) as [d|]; destruct mode, (o_y o), (e_ptp E); intros H; try discriminate H; injection H as <-; eauto.
Qed.
Lemma qmax_shape op l : qmax_kw (X:=X) (F:=F) (BF:=BF) (EM:=EM) (PK:=PK) E op = Ok l -> l = []%list \/ exists w, l = [("qmax", w)]%list.
Proof.
  unfold qmax_kw. destruct (given (op_qmax op)) as [s|]; [|intros [= <-]; auto]. destruct (String.eqb s "automatic"); [intros [= <-]; eauto|].
  destruct (e_float E s); [|discriminate]. cbn [bind]. intros [= <-]. eauto.
Qed.
Definition chunks op pf (bl : option value) me dg q : list (list (string * value)) :=
  [opt_kw "pf" (option_map (fun f => VPf [f]) pf); opt_kw "baseline" (truthy bl); opt_kw "cres" (option_map VNum (nonzero (op_cres op))); dg;
   opt_kw "rng" (option_map (fun r => VRng (Some (fst r)) (Some (snd r))) (op_range op)); q;
   (if switched_on (op_nyquist op) then [("nyquist", VBool true)] else []);
   opt_kw "supersample" (option_map VNum (nonzero (op_supersample op)));
   (if switched_on (op_scale op) then [("scale", VBool true)] else []);
   opt_kw "error_method" (option_map VErr me)]%list.
Lemma settings_chunks op pf bl me (o : obj) kw : settings E op pf bl me o = Ok kw ->
  exists dg q, uncertainties E op o = Ok dg /\ qmax_kw E op = Ok q /\ kw = concat (chunks op pf bl me dg q) /\
    Forall2 (fun k c => c = []%list \/ exists v, c = [(k, v)]%list) key_order (chunks op pf bl me dg q).
Proof.
  unfold settings. destruct (uncertainties E op o) as [dg|] eqn:U; [|discriminate]. cbn [bind]. destruct (qmax_kw E op) as [q|] eqn:Q; [|discriminate]. cbn [bind]. intros [= <-].
  exists dg, q. split; [reflexivity|]. split; [reflexivity|]. split; [unfold chunks; cbn [concat]; now rewrite !app_nil_r|].
  unfold key_order, chunks. repeat (apply Forall2_cons; [|]); try apply Forall2_nil; try apply opt_kw_shape.
  - destruct (uncertainties_shape op o dg U) as [->|(w & ->)]; eauto.
  - exact (qmax_shape op q Q).
  - destruct (switched_on _); eauto.
  - destruct (switched_on _); eauto.
Qed.
(** load, for a readable file *)
Lemma load_loaded file x y dx dy q : e_pdf E file = Ok (x, y, dx, dy, q) -> List.length y = List.length x -> List.length dx = List.length x -> List.length dy = List.length x ->
  exists o, load L E file = (o, Ok tt) /\ loaded file x y dx dy q o.
Proof.
  intros P L1 L2 L3. unfold load, read_srmise. assert (H : exists e, match e_text E file with None => Err GenericException | Some t => snd (Serial.read (fun _ : string => @None unit) t) end = Err e) by (destruct (e_text E file); eexists; reflexivity).
  destruct H as (e & ->). destruct (C133_loadpdf L (fresh (X:=X)) (e_pdf E file) (Some file)) as (_ & LD). destruct (LD _ _ _ _ _ P L1 L2 L3) as (o & H1 & H2). exists o. split; [exact H1|]. unfold loaded. intuition.
Qed.
Lemma lookup_replace k k' (v : value) kw : k <> k' -> lookup k (replace k' v kw) = lookup k kw.
Proof.
  intros N. induction kw as [|[k2 v2] kw IH]; [reflexivity|]. cbn [replace]. destruct (String.eqb_spec k' k2) as [->|]; cbn [lookup]; [|now rewrite IH]. destruct (String.eqb_spec k k2); [contradiction|reflexivity].
Qed.
Lemma prepare_inv op file x y dx dy q (o' : obj) :
  e_pdf E file = Ok (x, y, dx, dy, q) -> List.length y = List.length x -> List.length dx = List.length x -> List.length dy = List.length x ->
  prepare L E op [file] = Goes o' ->
  given (op_pf op) = None /\ given (op_me op) = None /\
  exists bl o dg qk kw' o1, chosen_baseline (X:=X) E op = Goes bl /\ loaded file x y dx dy q o /\ uncertainties E op o = Ok dg /\ qmax_kw E op = Ok qk /\
    Forall2 (fun k c => c = []%list \/ exists v, c = [(k, v)]%list) key_order (chunks op None bl None dg qk) /\
    (forall v, In ("supersample", v) (concat (chunks op None bl None dg qk)) -> exists s, v = VNum s /\ 1 <= s) /\
    (In ("qmax", VStr "automatic") (concat (chunks op None bl None dg qk)) -> o_attr o "qmax_fromdata" <> VNone) /\
    (forall k v, In (k, v) kw' <-> (In (k, v) (concat (chunks op None bl None dg qk)) /\ (k, v) <> ("qmax", VStr "automatic")) \/
       (k = "qmax" /\ v = o_attr o "qmax_fromdata" /\ In ("qmax", VStr "automatic") (concat (chunks op None bl None dg qk)))) /\
    after kw' o o1 /\ pdf_defaultvars L [] o1 = (o', Ok tt).
Proof.
  intros P L1 L2 L3 H. unfold prepare in H. rewrite !pick_none in H by reflexivity.
  destruct (given (op_pf op)); [discriminate|]. cbn [andthen] in H. destruct (given (op_me op)); [discriminate|]. cbn [andthen] in H. split; [reflexivity|]. split; [reflexivity|].
  destruct (chosen_baseline E op) as [| |e|bl] eqn:CB; try discriminate. cbn [andthen] in H. destruct (String.eqb file ""); [discriminate|].
  destruct (load_loaded file x y dx dy q P L1 L2 L3) as (o & LD & HO). rewrite LD in H. destruct (settings E op None bl None o) as [kw|] eqn:ST; [|discriminate]. cbn [lift andthen] in H.
  destruct (settings_chunks op None bl None o kw ST) as (dg & qk & U & Q & KW & SH). destruct (chunks_names _ _ SH key_nodup) as (ND & KN & KI). rewrite <- KW in ND, KN, KI.
  assert (NDG : ~ In "dg" (map fst kw)) by (intros I; apply KN in I; cbn in I; intuition discriminate).
  exists bl, o, dg, qk. rewrite <- KW.
  destruct (pdf_setvars L kw o) as [o2 [[]|e]] eqn:PS; [|discriminate]. injection H as ->.
  assert (AU : In ("qmax", VStr "automatic") kw -> o_attr o "qmax_fromdata" <> VNone).
  { intros I C. unfold pdf_setvars in PS. destruct (lookup "dg" kw) eqn:LDG; [apply lookup_in in LDG; exfalso; apply NDG; apply in_map_iff; eexists; split; [|exact LDG]; reflexivity|]. cbn [bind] in PS.
    destruct (lookup "qmax" kw) as [v|] eqn:LQ; [|apply lookup_none in LQ; apply LQ; apply in_map_iff; eexists; split; [|exact I]; reflexivity].
    assert (v = VStr "automatic").
    { apply lookup_in in LQ. apply (KI 5%nat "qmax" qk eq_refl eq_refl) in LQ. apply (KI 5%nat "qmax" qk eq_refl eq_refl) in I. destruct (qmax_shape op qk Q) as [->|(w & ->)]; [destruct I|]. destruct LQ as [[= <-]|[]], I as [[= ->]|[]]. reflexivity. }
    subst v. cbn [String.eqb Ascii.eqb Bool.eqb] in PS. rewrite C in PS. discriminate. }
  assert (SS : forall v, In ("supersample", v) kw -> exists s, v = VNum s /\ 1 <= s).
  { intros v I. assert (SV : exists s, v = VNum s).
    { apply (KI 7%nat "supersample" _ eq_refl eq_refl) in I. destruct (nonzero (op_supersample op)) as [s|]; [|destruct I]. destruct I as [[= <-]|[]]. eauto. }
    destruct SV as (s & ->). exists s. split; [reflexivity|]. destruct (Rle_dec 1 s) as [Hs|Hs]; [exact Hs|]. exfalso.
    assert (LS : lookup "supersample" kw = Some (VNum s)).
    { destruct (lookup "supersample" kw) as [w|] eqn:LQ; [|apply lookup_none in LQ; exfalso; apply LQ; apply in_map_iff; eexists; split; [|exact I]; reflexivity].
      apply lookup_in in LQ. apply (KI 7%nat "supersample" _ eq_refl eq_refl) in LQ. apply (KI 7%nat "supersample" _ eq_refl eq_refl) in I. destruct (nonzero (op_supersample op)) as [s'|]; [|destruct I]. destruct LQ as [[= <-]|[]], I as [[= ->]|[]]. reflexivity. }
    assert (LT : Rltb s 1 = true) by (apply Rltb_spec; lra).
    unfold pdf_setvars in PS. destruct (lookup "dg" kw) eqn:LDG; [apply lookup_in in LDG; exfalso; apply NDG; apply in_map_iff; eexists; split; [|exact LDG]; reflexivity|]. cbn [bind] in PS.
    destruct (lookup "qmax" kw) as [[| | | | |t| | | | | |]|]; cbn [bind] in PS; try (rewrite LS, LT in PS; discriminate).
    destruct (String.eqb t "automatic"); [|cbn [bind] in PS; rewrite LS, LT in PS; discriminate].
    destruct (o_attr o "qmax_fromdata") as [| | | | | | | | | | |]; cbn [bind] in PS; try discriminate; rewrite lookup_replace, LS, LT in PS by discriminate; discriminate. }
  destruct (C47_pdf_aliases L kw o ND) as (kw' & E1 & ND' & E2); [intros (A & _); contradiction|exact AU|exact SS|].
  rewrite E1 in PS. unfold setvars_with in PS. destruct (store pdf_vars kw' o) as [o1 r1] eqn:S1. destruct (store_spec _ kw' o o1 r1 S1 ND') as (D & done & rest & DR & _ & A1 & A2 & A3).
  destruct r1 as [[]|e]; [|discriminate]. assert (rest = []%list) by (destruct rest as [|[k v] rest]; [reflexivity|destruct A3; discriminate]). subst rest. rewrite app_nil_r in DR. subst done.
  exists kw', o1. split; [reflexivity|]. split; [exact HO|]. split; [exact U|]. split; [exact Q|]. split; [exact SH|]. split; [exact SS|]. split; [exact AU|]. split.
  { intros k v. rewrite E2. split.
    - intros [(A & B & C)|[(A & B)|B]]; [left; auto|exfalso; apply NDG; apply in_map_iff; eexists; split; [|exact B]; reflexivity|right; exact B].
    - intros [(A & B)|B]; [left|right; right; exact B]. split; [exact A|]. split; [|exact B]. intros ->. apply NDG. apply in_map_iff. exists ("dg", v). auto. }
  split; [split; [exact D|]; split; assumption|exact PS].
Qed.

(** Reading off one setting. *)
Lemma after_attr op bl dg qk kw' (o o1 : obj) i k c :
  Forall2 (fun k c => c = []%list \/ exists v, c = [(k, v)]%list) key_order (chunks op None bl None dg qk) ->
  (forall k v, In (k, v) kw' <-> (In (k, v) (concat (chunks op None bl None dg qk)) /\ (k, v) <> ("qmax", VStr "automatic")) \/
       (k = "qmax" /\ v = o_attr o "qmax_fromdata" /\ In ("qmax", VStr "automatic") (concat (chunks op None bl None dg qk)))) ->
  after kw' o o1 -> (forall k, In k pdf_vars -> o_attr o k = VNone) ->
  nth_error key_order i = Some k -> nth_error (chunks op None bl None dg qk) i = Some c -> k <> "qmax" ->
  o_attr o1 k = match c with (_, v) :: _ => v | [] => VNone end.
Proof.
  intros SH KW (_ & A1 & A2) CL E1 E2 NQ. destruct (chunks_names _ _ SH key_nodup) as (_ & _ & KI). specialize (KI i k c E1 E2).
  assert (HC : c = []%list \/ exists v, c = [(k, v)]%list).
  { clear - SH E1 E2. revert i E1 E2. induction SH as [|k0 c0 ks cs H0 HF IH]; intros [|i] E1 E2; try discriminate; cbn in E1, E2; [injection E1 as <-; injection E2 as <-; exact H0|now apply (IH i)]. }
  destruct HC as [->|(v & ->)].
  - rewrite A2; [apply CL|].
    + clear - E1. do 10 (destruct i as [|i]; [injection E1 as <-; cbn; tauto|]). destruct i; discriminate.
    + intros I. apply in_map_iff in I as ([k' v] & Ek & I). cbn [fst] in Ek. subst k'. apply KW in I as [(I & _)|(I & _)]; [|contradiction]. apply KI in I. destruct I.
  - apply A1. apply KW. left. split; [apply KI; now left|]. congruence.
Qed.

(** *** C144 *)
Theorem C144_options_reach_the_extraction :
  forall op file x0 rest y dx dy q (o' : obj), let x := (x0 :: rest)%list in
    e_pdf E file = Ok (x, y, dx, dy, q) -> List.length y = List.length x -> List.length dx = List.length x -> List.length dy = List.length x ->
    prepare L E op [file] = Goes o' ->
    (* the data of the file *)
    o_x o' = Some x /\ o_y o' = y /\ o_dx o' = dx /\ o_dy o' = dy /\ o_attr o' "filename" = VStr file /\ o_attr o' "extracted" = VNone /\
    (* --range *)
    (forall lo hi, op_range op = Some (lo, hi) -> o_attr o' "rng" = VRng (Some lo) (Some hi)) /\
    (op_range op = None -> o_attr o' "rng" = VRng (Some x0) (Some (last x x0))) /\
    (* --qmax *)
    (op_qmax op = None -> o_attr o' "qmax" = VNum q) /\
    (op_qmax op = Some "automatic" -> exists q', find_qmax L x y = Ok q' /\ o_attr o' "qmax" = VNum q') /\
    (forall s, op_qmax op = Some s -> s <> "" -> s <> "automatic" -> exists v, e_float E s = Ok v /\ o_attr o' "qmax" = VNum v) /\
    (* --nyquist *)
    (op_nyquist op = Some true -> o_attr o' "nyquist" = VBool true) /\
    (op_nyquist op = None -> exists v b, o_attr o' "qmax" = VNum v /\ o_attr o' "nyquist" = VBool b /\ (b = true <-> 0 < v)) /\
    (* --cres *)
    (forall c, op_cres op = Some c -> c <> 0 -> o_attr o' "cres" = VNum c) /\
    (op_cres op = None -> exists v, o_attr o' "qmax" = VNum v /\ (0 < v -> o_attr o' "cres" = VNum (PI / v)) /\
                                    (v <= 0 -> o_attr o' "cres" = VNum (4 * (last x x0 - x0) / INR (List.length x)))) /\
    (* --supersample *)
    (forall s, op_supersample op = Some s -> s <> 0 -> 1 <= s /\ o_attr o' "supersample" = VNum s) /\
    (op_supersample op = None -> o_attr o' "supersample" = VNum 4) /\
    (* --scale *)
    (op_scale op = Some true -> o_attr o' "scale" = VBool true) /\
    (op_scale op <> Some true -> o_attr o' "scale" = VBool false) /\
    (* no option selects these *)
    o_attr o' "pf" = VPf [gor L (7 / 10)] /\ o_attr o' "error_method" = VErr (aic L) /\ o_attr o' "initial_peaks" = VPeaks (no_peaks L).
Proof.
  intros op file x0 rest y dx dy q o' x P L1 L2 L3 H.
  destruct (prepare_inv op file x y dx dy q o' P L1 L2 L3 H) as (_ & _ & bl & o & dg & qk & kw' & o1 & CB & HO & U & Q & SH & SS & AU & KW & AF & DV).
  destruct HO as (OX & OY & ODX & ODY & OQR & OQF & OF & CL & OEX & OET).
  pose proof (fun i k c => after_attr op bl dg qk kw' o o1 i k c SH KW AF CL) as AT.
  destruct (chunks_names _ _ SH key_nodup) as (_ & KN & KI). destruct AF as ((D1 & D2 & D3 & D4) & A1 & A2).
  destruct (C48_pdf_explicit_settings_survive L [] o1 o' _ DV) as ((D1' & D2' & D3' & D4') & SV & EX).
  assert (O1X : o_x o1 = Some x) by congruence.
  destruct (C48_pdf_documented_defaults L [] o1 o' x0 rest O1X DV) as (_ & KQ & KNy & KSc & KSu & KC & KP & _ & KR & _ & KM & KIn).
  assert (NV : forall k, ~ In k pdf_vars -> o_attr o1 k = o_attr o k).
  { intros k N. apply A2. intros I. apply N. apply in_map_iff in I as ([k' v] & Ek & I). cbn [fst] in Ek. subst k'. apply KW in I as [(I & _)|(-> & _)]; [|cbn; tauto].
    assert (J : In k key_order) by (apply KN; apply in_map_iff; exists (k, v); auto). cbn in J. cbn. intuition. }
  assert (KEEP : forall k v, o_attr o1 k = v -> ~ incomplete k v -> o_attr o' k = v) by (intros k v HV NI; rewrite EX; [exact HV|intros []|intros [_ []]|now rewrite HV]).
  assert (NUM : forall k v, k <> "effective_dy" -> ~ incomplete (F:=F) (BF:=BF) (BL:=baseline) (EM:=EM) (PK:=PK) (X:=X) k (VNum v)) by (intros k v N [C|[(C & _)|[(_ & a & b & C & _)|(_ & g & C)]]]; [discriminate|contradiction|discriminate|discriminate]).
  assert (BOO : forall k v, ~ incomplete (F:=F) (BF:=BF) (BL:=baseline) (EM:=EM) (PK:=PK) (X:=X) k (VBool v)) by (intros k v [C|[(_ & d & C & _)|[(_ & a & b & C & _)|(_ & g & C)]]]; discriminate).
  split; [congruence|]. split; [congruence|]. split; [congruence|]. split; [congruence|].
  split; [rewrite SV, NV by (cbn; intuition discriminate); exact OF|]. split; [rewrite SV, NV by (cbn; intuition discriminate); exact OEX|].
  assert (A_rng := AT 4%nat "rng" _ eq_refl eq_refl ltac:(discriminate)). assert (A_cres := AT 2%nat "cres" _ eq_refl eq_refl ltac:(discriminate)).
  assert (A_ny := AT 6%nat "nyquist" _ eq_refl eq_refl ltac:(discriminate)). assert (A_su := AT 7%nat "supersample" _ eq_refl eq_refl ltac:(discriminate)).
  assert (A_sc := AT 8%nat "scale" _ eq_refl eq_refl ltac:(discriminate)). assert (A_pf := AT 0%nat "pf" _ eq_refl eq_refl ltac:(discriminate)). assert (A_em := AT 9%nat "error_method" _ eq_refl eq_refl ltac:(discriminate)).
  cbn [option_map opt_kw] in A_pf, A_em.
  assert (A_ip : o_attr o1 "initial_peaks" = VNone).
  { rewrite A2; [apply CL; cbn; tauto|]. intros I. apply in_map_iff in I as ([k' v] & Ek & I). cbn [fst] in Ek. subst k'. apply KW in I as [(I & _)|(I & _)]; [|discriminate].
    assert (J : In "initial_peaks" key_order) by (apply KN; apply in_map_iff; exists ("initial_peaks", v); auto). cbn in J. intuition discriminate. }
  split.
  { intros lo hi HR. rewrite HR in A_rng. cbn [option_map opt_kw fst snd] in A_rng. apply KEEP; [exact A_rng|]. intros [C|[(C & _)|[(_ & a & b & C & C2)|(C & _)]]]; try discriminate. injection C as <- <-. destruct C2; discriminate. }
  split; [intros HR; rewrite HR in A_rng; cbn [option_map opt_kw] in A_rng; now apply KR; left|].
  (* qmax *)
  assert (RP : o_attr o1 "qmax_reportedbypdf" = VNum q) by (rewrite NV by (cbn; intuition discriminate); exact OQR).
  split.
  { intros HQ. assert (QN : o_attr o1 "qmax" = VNone).
    { rewrite A2; [apply CL; cbn; tauto|]. unfold qmax_kw in Q. rewrite HQ in Q. cbn [given] in Q. injection Q as <-. intros I. apply in_map_iff in I as ([k' v] & Ek & I). cbn [fst] in Ek. subst k'.
      apply KW in I as [(I & _)|(_ & _ & I)]; apply (KI 5%nat "qmax" _ eq_refl eq_refl) in I; destruct I. }
    rewrite KQ by (now left). unfold preferred_qmax. now rewrite RP. }
  split.
  { intros HQ. unfold qmax_kw in Q. rewrite HQ in Q. cbn [given String.eqb Ascii.eqb Bool.eqb] in Q. injection Q as <-. assert (I : In ("qmax", VStr "automatic") (concat (chunks op None bl None dg [("qmax", VStr "automatic")]))) by (apply (KI 5%nat "qmax" _ eq_refl eq_refl); now left).
    specialize (AU I). rewrite OQF in AU. destruct (find_qmax L x y) as [q'|e] eqn:FQ; [|contradiction]. exists q'. split; [reflexivity|]. apply KEEP; [|apply NUM; discriminate]. apply A1. apply KW. right. rewrite OQF. auto. }
  split.
  { intros s HQ N1 N2. unfold qmax_kw in Q. assert (G : given (op_qmax op) = Some s) by (now apply given_some). rewrite G in Q. destruct (String.eqb_spec s "automatic"); [contradiction|]. destruct (e_float E s) as [v|]; [|discriminate]. cbn [bind] in Q. injection Q as <-.
    exists v. split; [reflexivity|]. apply KEEP; [|apply NUM; discriminate]. apply A1. apply KW. left. split; [apply (KI 5%nat "qmax" _ eq_refl eq_refl); now left|discriminate]. }
  split; [intros HN; rewrite HN in A_ny; cbn [switched_on] in A_ny; apply KEEP; [exact A_ny|apply BOO]|].
  split.
  { intros HN. rewrite HN in A_ny. cbn [switched_on] in A_ny. destruct (KNy (or_introl A_ny)) as (v & V1 & b & V2 & V3). exists v, b. auto. }
  split; [intros c HC NC; apply KEEP; [|apply NUM; discriminate]; rewrite A_cres, HC; cbn [nonzero]; destruct (Req_EM_T c 0); [contradiction|reflexivity]|].
  split; [intros HC; rewrite HC in A_cres; cbn [nonzero option_map opt_kw] in A_cres; destruct (KC (or_introl A_cres)) as (v & V1 & V2 & V3); exists v; auto|].
  split.
  { intros s HS NS. assert (G : nonzero (op_supersample op) = Some s) by (now apply nonzero_some). rewrite G in A_su. cbn [option_map opt_kw] in A_su.
    split; [|apply KEEP; [exact A_su|apply NUM; discriminate]]. destruct (SS (VNum s)) as (s' & [= <-] & Hs); [|exact Hs]. apply (KI 7%nat "supersample" _ eq_refl eq_refl). rewrite G. now left. }
  split; [intros HS; rewrite HS in A_su; cbn [nonzero option_map opt_kw] in A_su; now apply KSu; left|].
  split; [intros HS; rewrite HS in A_sc; cbn [switched_on] in A_sc; apply KEEP; [exact A_sc|apply BOO]|].
  split; [intros HS; apply KSc; left; rewrite A_sc; destruct (op_scale op) as [[]|]; [contradiction|reflexivity|reflexivity]|].
  split; [now apply KP; left|]. split; [now apply KM; left|now apply KIn; left].
Qed.

(** With valid options everything up to the defaults succeeds. *)
Lemma prepare_reaches :
  forall op file x0 rest y dx dy q, let x := (x0 :: rest)%list in
    e_pdf E file = Ok (x, y, dx, dy, q) -> List.length y = List.length x -> List.length dx = List.length x -> List.length dy = List.length x -> file <> "" ->
    op_pf op = None -> op_me op = None ->
    forall bl, chosen_baseline (X:=X) E op = Goes bl ->
    (op_dgmode op = Some Absolute -> op_dg op <> None) -> (op_dgmode op = Some PtpFraction -> e_ptp E = true) ->
    (op_qmax op = None \/ op_qmax op = Some "automatic" /\ (exists v, find_qmax L x y = Ok v) \/ exists s v, op_qmax op = Some s /\ s <> "automatic" /\ e_float E s = Ok v) ->
    (forall s, op_supersample op = Some s -> 1 <= s) ->
    exists o1 : obj, prepare L E op [file] = match pdf_defaultvars L [] o1 with (o', Ok _) => Goes o' | (_, Err e) => Raised e end /\
      o_x o1 = Some x /\ o_y o1 = y /\ o_attr o1 "rng" = match op_range op with Some (a, b) => VRng (Some a) (Some b) | None => VNone end /\
      o_attr o1 "baseline" = match truthy bl with Some v => v | None => VNone end /\
      num_or_none (o_attr o1 "qmax") /\ num_or_none (o_attr o1 "qmax_reportedbypdf") /\ num_or_none (o_attr o1 "qmax_fromdata").
Proof.
  intros op file x0 rest y dx dy q x P L1 L2 L3 NF HPF HME bl CB HA HP HQ HS. unfold prepare. rewrite HPF, HME, CB. cbn [pick_module given andthen].
  destruct (String.eqb_spec file ""); [contradiction|]. destruct (load_loaded file x y dx dy q P L1 L2 L3) as (o & LD & HO). rewrite LD.
  destruct HO as (OX & OY & ODX & ODY & OQR & OQF & OF & CL & OEX & OET).
  assert (YN : exists y0 yr, y = (y0 :: yr)%list) by (destruct y; [discriminate|eauto]). destruct YN as (y0 & yr & YE).
  assert (U : exists dg, uncertainties E op o = Ok dg).
  { unfold uncertainties. rewrite OX, OY, YE. destruct (op_dgmode op) as [[]|]; cbn [dg_default]; try (destruct (op_dg op); eexists; reflexivity).
    - destruct (op_dg op); [eexists; reflexivity|exfalso; now apply HA].
    - rewrite (HP eq_refl). destruct (op_dg op); eexists; reflexivity.
    - destruct (op_dg op) as [d|]; cbn [nonzero]; [destruct (Req_EM_T d 0)|]; eexists; reflexivity. }
  destruct U as (dg & U).
  assert (QK : exists qk, qmax_kw (X:=X) (F:=F) (BF:=BF) (EM:=EM) (PK:=PK) E op = Ok qk /\ (qk = [] \/ qk = [("qmax", VStr "automatic")] /\ (exists v, find_qmax L x y = Ok v) \/ exists v, qk = [("qmax", VNum v)])).
  { unfold qmax_kw. destruct HQ as [->|[(-> & v & FQ)|(s & v & -> & NA & FV)]].
    - exists []. auto.
    - exists [("qmax", VStr "automatic")]. split; [reflexivity|]. right. left. eauto.
    - destruct (given (Some s)) as [s'|] eqn:G; [|exists []; auto]. apply given_some in G as [[= ->] _]. destruct (String.eqb_spec s' "automatic") as [->|N]; [contradiction|rewrite FV; eexists; split; [reflexivity|eauto]]. }
  destruct QK as (qk & Q & QS).
  assert (ST : settings E op None bl None o = Ok (concat (chunks op None bl None dg qk))) by (unfold settings; rewrite U, Q; cbn [bind]; unfold chunks; cbn [concat]; now rewrite !app_nil_r).
  rewrite ST. cbn [lift andthen]. destruct (settings_chunks op None bl None o _ ST) as (dg' & qk' & U' & Q' & KW' & SH). rewrite U in U'. injection U' as <-. rewrite Q in Q'. injection Q' as <-. clear KW'.
  destruct (chunks_names _ _ SH key_nodup) as (ND & KN & KI). set (kw := concat (chunks op None bl None dg qk)) in *.
  assert (NDG : ~ In "dg" (map fst kw)) by (intros I; apply KN in I; cbn in I; intuition discriminate).
  assert (AU : In ("qmax", VStr "automatic") kw -> o_attr o "qmax_fromdata" <> VNone).
  { intros I. apply (KI 5%nat "qmax" qk eq_refl eq_refl) in I. destruct QS as [->|[(_ & v & FQ)|(v & ->)]]; [destruct I| |destruct I as [I|[]]; discriminate]. rewrite OQF, FQ. discriminate. }
  destruct (C47_pdf_aliases L kw o ND) as (kw' & E1 & ND' & E2); [intros (A & _); contradiction|exact AU| |].
  { intros v I. apply (KI 7%nat "supersample" _ eq_refl eq_refl) in I. destruct (nonzero (op_supersample op)) as [s|] eqn:NZ; [|destruct I]. destruct I as [[= <-]|[]]. exists s. split; [reflexivity|]. apply nonzero_some in NZ as [NZ _]. now apply HS. }
  assert (KW : forall k v, In (k, v) kw' <-> (In (k, v) kw /\ (k, v) <> ("qmax", VStr "automatic")) \/ (k = "qmax" /\ v = o_attr o "qmax_fromdata" /\ In ("qmax", VStr "automatic") kw)).
  { intros k v. rewrite E2. split.
    - intros [(A & B & C)|[(A & B)|B]]; [left; auto|exfalso; apply NDG; apply in_map_iff; eexists; split; [|exact B]; reflexivity|right; exact B].
    - intros [(A & B)|B]; [left|right; right; exact B]. split; [exact A|]. split; [|exact B]. intros ->. apply NDG. apply in_map_iff. exists ("dg", v). auto. }
  rewrite E1. unfold setvars_with. destruct (store pdf_vars kw' o) as [o1 r1] eqn:S1. destruct (store_spec _ kw' o o1 r1 S1 ND') as (D & done & rst & DR & _ & A1 & A2 & A3).
  assert (KV : forall k v, In (k, v) kw' -> In k pdf_vars).
  { intros k v I. apply KW in I as [(I & _)|(-> & _)]; [|cbn; tauto]. assert (J : In k key_order) by (apply KN; apply in_map_iff; exists (k, v); auto). cbn in J. cbn. intuition. }
  destruct rst as [|[k v] rst]; [|exfalso; destruct A3 as [A3 _]; apply A3; apply (KV k v); rewrite DR; apply in_or_app; right; now left]. subst r1. rewrite app_nil_r in DR. subst done.
  assert (AF : after kw' o o1) by (split; [exact D|]; split; assumption).
  pose proof (fun i k c => after_attr op bl dg qk kw' o o1 i k c SH KW AF CL) as AT. destruct D as (D1 & D2 & D3 & D4).
  assert (NV : forall k, ~ In k pdf_vars -> o_attr o1 k = o_attr o k) by (intros k N; apply A2; intros I; apply N; apply in_map_iff in I as ([k' v] & Ek & I); cbn [fst] in Ek; subst k'; now apply (KV k v)).
  exists o1. split; [reflexivity|]. split; [congruence|]. split; [congruence|].
  split; [rewrite (AT 4%nat "rng" _ eq_refl eq_refl ltac:(discriminate)); destruct (op_range op) as [[a b]|]; reflexivity|].
  split; [rewrite (AT 1%nat "baseline" _ eq_refl eq_refl ltac:(discriminate)); destruct (truthy bl); reflexivity|].
  split; [|split].
  - destruct QS as [QS|[(QS & v & FQ)|(v & QS)]].
    + left. rewrite A2; [apply CL; cbn; tauto|]. intros I. apply in_map_iff in I as ([k' w] & Ek & I). cbn [fst] in Ek. subst k'. apply KW in I as [(I & _)|(_ & _ & I)]; apply (KI 5%nat "qmax" _ eq_refl eq_refl) in I; rewrite QS in I; destruct I.
    + right. exists v. apply A1. apply KW. right. rewrite OQF, FQ. split; [reflexivity|]. split; [reflexivity|]. apply (KI 5%nat "qmax" _ eq_refl eq_refl). rewrite QS. now left.
    + right. exists v. apply A1. apply KW. left. split; [|discriminate]. apply (KI 5%nat "qmax" _ eq_refl eq_refl). rewrite QS. now left.
  - right. exists q. rewrite NV by (cbn; intuition discriminate). exact OQR.
  - rewrite NV by (cbn; intuition discriminate). rewrite OQF. destruct (find_qmax L x y) as [v|]; [right; exists v; reflexivity|left; reflexivity].
Qed.
(** The six steps of the PDF class. *)
Lemma pdf_steps_ok (o : obj) : num_or_none (o_attr o "qmax") -> num_or_none (o_attr o "qmax_reportedbypdf") -> num_or_none (o_attr o "qmax_fromdata") ->
  exists p, seq_steps [step_qmax []; step_nyquist []; step_const "scale" (VBool false) []; step_const "supersample" (VNum 4) []; step_pdfcres []; step_const "pf" (VPf [gor L (7 / 10)]) []] o = (p, Ok tt).
Proof.
  intros HQ HR HF. rewrite seq_steps_cons.
  assert (Q1 : exists o1 q, step_qmax [] o = (o1, Ok tt) /\ o_attr o1 "qmax" = VNum q).
  { unfold step_qmax. destruct (wanted [] o "qmax") eqn:W.
    - eexists. destruct HR as [HR|[q HR]], HF as [HF|[q' HF]]; eexists; (split; [reflexivity|]); rewrite attr_same, HR, ?HF; reflexivity.
    - apply wanted_false in W as [W _]. destruct HQ as [HQ|[q HQ]]; [contradiction|]. exists o, q. auto. }
  destruct Q1 as (o1 & q & -> & V1). set (I := fun q' : obj => o_attr q' "qmax" = VNum q).
  destruct (seq_ok [step_nyquist []; step_const "scale" (VBool false) []; step_const "supersample" (VNum 4) []; step_pdfcres []; step_const "pf" (VPf [gor L (7 / 10)]) []] I) with (o := o1) as (p & H & _); [|exact V1|exists p; exact H].
  intros s Hs u Hu. unfold I in *. cbn in Hs. destruct Hs as [<-|[<-|[<-|[<-|[<-|[]]]]]].
  - unfold step_nyquist. rewrite Hu. cbn [posnum]. destruct (wanted [] u "nyquist"); eexists; (split; [reflexivity|]); [rewrite attr_other by discriminate|]; exact Hu.
  - unfold step_const. destruct (wanted [] u "scale"); eexists; (split; [reflexivity|]); [rewrite attr_other by discriminate|]; exact Hu.
  - unfold step_const. destruct (wanted [] u "supersample"); eexists; (split; [reflexivity|]); [rewrite attr_other by discriminate|]; exact Hu.
  - unfold step_pdfcres. rewrite Hu. destruct (wanted [] u "cres"); [|eexists; (split; [reflexivity|]); exact Hu].
    destruct (Rltb 0 q); eexists; (split; [reflexivity|]); [rewrite attr_other by discriminate|]; exact Hu.
  - unfold step_const. destruct (wanted [] u "pf"); eexists; (split; [reflexivity|]); [rewrite attr_other by discriminate|]; exact Hu.
Qed.
(** A readable file and valid options: the run reaches the extraction.  The baseline is
    a baseline, or a baseline function that estimates one from the points in the range
    or says that it cannot. *)
Theorem C144_valid_options_are_accepted :
  forall op file x0 rest y dx dy q, let x := (x0 :: rest)%list in
    e_pdf E file = Ok (x, y, dx, dy, q) -> List.length y = List.length x -> List.length dx = List.length x -> List.length dy = List.length x -> file <> "" ->
    op_pf op = None -> op_me op = None ->
    (exists bl, chosen_baseline (X:=X) E op = Goes bl /\
       ((forall f, bl <> Some (VBaseFn f)) \/
        exists f lo hi, bl = Some (VBaseFn f) /\ StronglySorted Rle x /\
          match op_range op with Some (a, b) => lo = a /\ hi = b | None => lo = x0 /\ hi = last x x0 end /\ lo <= last x x0 /\ x0 <= hi /\
          forall e, estimate_bl L f (filter (in_range lo hi) x) (values_in_range lo hi x y) = Err e -> e = NotImplementedErr \/ e = EstimationError)) ->
    (op_dgmode op = Some Absolute -> op_dg op <> None) -> (op_dgmode op = Some PtpFraction -> e_ptp E = true) ->
    (op_qmax op = None \/ op_qmax op = Some "automatic" /\ (exists v, find_qmax L x y = Ok v) \/ exists s v, op_qmax op = Some s /\ s <> "automatic" /\ e_float E s = Ok v) ->
    (forall s, op_supersample op = Some s -> 1 <= s) ->
    exists o' : obj, prepare L E op [file] = Goes o'.
Proof.
  intros op file x0 rest y dx dy q x P L1 L2 L3 NF HPF HME (bl & CB & HB) HA HP HQ HS.
  destruct (prepare_reaches op file x0 rest y dx dy q P L1 L2 L3 NF HPF HME bl CB HA HP HQ HS) as (o1 & H & OX & OY & OR & OB & N1 & N2 & N3). fold x in OX. rewrite H.
  assert (YN : y <> []) by (intros ->; discriminate).
  assert (RT : rng_typed (o_attr o1 "rng")) by (rewrite OR; destruct (op_range op) as [[a b]|]; [right; eauto|now left]).
  destruct HB as [HB|(f & lo & hi & -> & SX & HR & R1 & R2 & HE)].
  - destruct (C48_pdf_succeeds L [] o1 x0 rest OX) as (o' & SU); [congruence|exact RT| |assumption|assumption|assumption|rewrite SU; exists o'; reflexivity].
    intros f. rewrite OB. destruct bl as [v|]; [|discriminate]. cbn [truthy]. destruct v; try discriminate; [intros C; apply (HB f); cbn in C; congruence|]. destruct (bl_len b =? 0)%nat; discriminate.
  - unfold pdf_defaultvars. destruct (pdf_steps_ok o1 N1 N2 N3) as (p & ES). rewrite ES. destruct (seq_keeps [] _ _ (pdf_touches L []) o1 p _ ES) as ((P1 & P2 & P3 & P4) & PB & _).
    pose proof (C132_baseline_estimation L (pdf_nargs [] p) p x0 rest f lo hi) as C. cbn zeta in C. fold x in C. rewrite P2, OY in C.
    assert (NA : forall k, ~ In k (pdf_nargs [] p)) by (intros k I; apply in_pdf_nargs in I; cbn in I; intuition).
    assert (PBL : o_attr p "baseline" = VBaseFn f) by (rewrite PB by (cbn; intuition discriminate); exact OB).
    assert (PR : o_attr p "rng" = match op_range op with Some (a, b) => VRng (Some a) (Some b) | None => VNone end) by (rewrite PB by (cbn; intuition discriminate); exact OR).
    specialize (C ltac:(congruence) SX L1 PBL (NA _)).
    match type of C with ?T -> _ => assert (HC : T) end.
    { destruct (op_range op) as [[a b]|].
      - right. split; [apply NA|]. destruct HR as [-> ->]. exists (Some a), (Some b). auto.
      - left. split; [left; exact PR|]. split; [left; exact PR|]. exact HR. }
    specialize (C HC R1 R2). destruct (estimate_bl L f _ _) as [b|e].
    + destruct C as (o2 & C1 & _). rewrite C1. exists o2. reflexivity.
    + destruct (HE e eq_refl) as [-> | ->]; destruct C as (o2 & C1 & _); rewrite C1; exists o2; reflexivity.
Qed.

(** Any other number of files than one ends the run with a usage message; nothing is read
    or written. *)
Theorem C144_exactly_one_file :
  forall op files, List.length files <> 1%nat -> main L E op files = Usage.
Proof. intros op [|f [|g r]] H; try reflexivity. cbn in H. congruence. Qed.

(** *** C145 *)
(** The uncertainties used, by mode. *)
Theorem C145_uncertainty_modes :
  forall op file x0 rest y dx dy q (o' : obj), let x := (x0 :: rest)%list in
    e_pdf E file = Ok (x, y, dx, dy, q) -> List.length y = List.length x -> List.length dx = List.length x -> List.length dy = List.length x ->
    prepare L E op [file] = Goes o' ->
    (* the actual uncertainty; also the meaning of --dg alone *)
    (op_dgmode op = Some Absolute \/ op_dgmode op = None -> forall d, op_dg op = Some d -> o_attr o' "effective_dy" = VArr (repeat d (List.length x))) /\
    (op_dgmode op = Some Absolute -> exists d, op_dg op = Some d) /\
    (* fractions; 0.05 and 1 if --dg is missing *)
    (op_dgmode op = Some MaxFraction -> exists m, is_max m y /\
       o_attr o' "effective_dy" = VArr (repeat (match op_dg op with Some d => d | None => 5 / 100 end * m) (List.length x))) /\
    (op_dgmode op = Some PtpFraction -> e_ptp E = true /\ exists m n, is_max m y /\ is_min n y /\
       o_attr o' "effective_dy" = VArr (repeat (match op_dg op with Some d => d | None => 5 / 100 end * (m - n)) (List.length x))) /\
    (op_dgmode op = Some DGFraction -> o_attr o' "effective_dy" = VArr (map (fun e => match op_dg op with Some d => d | None => 1 end * e) dy)) /\
    (* neither option: the uncertainties of the file *)
    (op_dgmode op = None -> op_dg op = None -> o_attr o' "effective_dy" = VArr dy) /\
    (* data: those of the file if all are positive *)
    (op_dgmode op = Some Data -> (forall e, In e dy -> 0 < e) -> o_attr o' "effective_dy" = VArr dy).
Proof.
  intros op file x0 rest y dx dy q o' x P L1 L2 L3 H.
  destruct (prepare_inv op file x y dx dy q o' P L1 L2 L3 H) as (_ & _ & bl & o & dg & qk & kw' & o1 & CB & HO & U & Q & SH & SS & AU & KW & AF & DV).
  destruct HO as (OX & OY & ODX & ODY & OQR & OQF & OF & CL & OEX & OET).
  assert (A := after_attr op bl dg qk kw' o o1 3%nat "effective_dy" _ SH KW AF CL eq_refl eq_refl ltac:(discriminate)). destruct AF as ((D1 & D2 & D3 & D4) & _).
  destruct (C48_pdf_explicit_settings_survive L [] o1 o' _ DV) as (_ & _ & EX).
  assert (KEEP : forall l, dg = [("effective_dy", VArr l)] -> o_attr o' "effective_dy" = VArr l).
  { intros l Hl. rewrite Hl in A. rewrite EX; [exact A|intros []|intros [_ []]|rewrite A]. intros [C|[(_ & d & C & _)|[(_ & a & b & C & _)|(_ & g & C)]]]; discriminate. }
  assert (YN : exists y0 yr, y = (y0 :: yr)%list) by (destruct y; [discriminate|eauto]). destruct YN as (y0 & yr & YE).
  unfold uncertainties in U. rewrite OX, OY, ODY in U.
  split.
  { intros HM d Hd. apply KEEP. destruct HM as [HM|HM]; rewrite HM, Hd in U.
    - cbn [dg_default] in U. injection U as <-. rewrite map_repeat_mult, Rmult_1_r. reflexivity.
    - cbn [nonzero] in U. destruct (Req_EM_T d 0) as [->|N]; injection U as <-; [rewrite map_mult_0, L3; reflexivity|rewrite map_repeat_mult, Rmult_1_r; reflexivity]. }
  split; [intros HM; rewrite HM in U; destruct (op_dg op) as [d|]; [eauto|discriminate]|].
  split.
  { intros HM. exists (list_max y). split; [rewrite YE; apply list_max_is|]. apply KEEP. rewrite HM in U. rewrite YE in U at 1. destruct (op_dg op) as [d|]; injection U as <-; now rewrite map_repeat_mult. }
  split.
  { intros HM. rewrite HM in U. destruct (e_ptp E); [|discriminate]. split; [reflexivity|]. exists (list_max y), (list_min y). split; [rewrite YE; apply list_max_is|]. split; [rewrite YE; apply list_min_is|]. apply KEEP.
    rewrite YE in U at 1. destruct (op_dg op) as [d|]; injection U as <-; now rewrite map_repeat_mult, L1. }
  split; [intros HM; apply KEEP; rewrite HM in U; destruct (op_dg op) as [d|]; injection U as <-; reflexivity|].
  split; [intros HM Hd; apply KEEP; rewrite HM, Hd in U; cbn [nonzero dg_default] in U; injection U as <-; now rewrite map_mult_1|].
  intros HM HP. rewrite HM in U. injection U as <-. assert (O1X : o_x o1 = Some x) by congruence.
  destruct (C48_pdf_documented_defaults L [] o1 o' x0 rest O1X DV) as (_ & _ & _ & _ & _ & _ & _ & KE & _). rewrite KE by (now left). unfold crude_dy. rewrite D4, ODY.
  assert (FB : forallb (fun d => Rltb 0 d) dy = true) by (apply forallb_forall; intros e He; apply Rltb_spec; now apply HP). now rewrite FB.
Qed.

(** *** C146 *)
Theorem C146_baseline_options :
  forall op file x0 rest y dx dy q (o' : obj), let x := (x0 :: rest)%list in
    e_pdf E file = Ok (x, y, dx, dy, q) -> List.length y = List.length x -> List.length dx = List.length x -> List.length dy = List.length x ->
    prepare L E op [file] = Goes o' ->
    (* --bcrystal: the line -4 pi rho r, fixed if rho is *)
    (forall s, op_bcrystal op = Some s -> s <> "" -> e_float E "0" = Ok 0 -> exists rho free, reads (e_float E) s (rho, free) /\
       exists a b, o_attr o' "baseline" = VBase (Poly [(a, free); (b, false)]) /\ forall r, polyval [a; b] r = -4 * PI * rho * r) /\
    (op_bcrystal op = None -> op_bsrmise op = None ->
     (* --bpoly0 c *)
     (forall s, op_bpoly0 op = Some s -> s <> "" -> exists p, reads (e_float E) s p /\ o_attr o' "baseline" = VBase (Poly [p])) /\
     (op_bpoly0 op = None ->
      (* --bpoly1 a b: a r + b *)
      (forall s t, op_bpoly1 op = Some (s, t) -> exists p1 p0, reads (e_float E) s p1 /\ reads (e_float E) t p0 /\
         o_attr o' "baseline" = VBase (Poly [p1; p0]) /\ forall r, polyval [fst p1; fst p0] r = fst p1 * r + fst p0) /\
      (op_bpoly1 op = None ->
       (* --bpoly2 a b c *)
       (forall s t u, op_bpoly2 op = Some (s, t, u) -> exists p2 p1 p0, reads (e_float E) s p2 /\ reads (e_float E) t p1 /\ reads (e_float E) u p0 /\
          o_attr o' "baseline" = VBase (Poly [p2; p1; p0]) /\ forall r, polyval [fst p2; fst p1; fst p0] r = fst p2 * r * r + fst p1 * r + fst p0) /\
       (op_bpoly2 op = None -> op_bseq op = None ->
        (* --bspherical s r *)
        (forall s t, op_bspherical op = Some (s, t) -> exists p r, reads (e_float E) s p /\ reads (e_float E) t r /\
           o_attr o' "baseline" = VBase (Spherical (Rabs (fst p), snd p) (Rabs (fst r), snd r))) /\
        (* nothing: no baseline *)
        (op_bspherical op = None -> op_baseline op = None -> o_attr o' "baseline" = VBase (zero_bl L)))))).
Proof.
  intros op file x0 rest y dx dy q o' x P L1 L2 L3 H.
  destruct (prepare_inv op file x y dx dy q o' P L1 L2 L3 H) as (_ & _ & bl & o & dg & qk & kw' & o1 & CB & HO & U & Q & SH & SS & AU & KW & AF & DV).
  destruct HO as (OX & OY & ODX & ODY & OQR & OQF & OF & CL & OEX & OET).
  assert (A := after_attr op bl dg qk kw' o o1 1%nat "baseline" _ SH KW AF CL eq_refl eq_refl ltac:(discriminate)). destruct AF as ((D1 & D2 & D3 & D4) & _).
  destruct (C48_pdf_explicit_settings_survive L [] o1 o' _ DV) as (_ & _ & EX). assert (O1X : o_x o1 = Some x) by congruence.
  destruct (C48_pdf_documented_defaults L [] o1 o' x0 rest O1X DV) as (_ & _ & _ & _ & _ & _ & _ & _ & _ & KB & _).
  assert (KEEP : forall b, bl = Some (VBase b) -> bl_len b <> 0%nat -> o_attr o' "baseline" = VBase b).
  { intros b Hb NB. rewrite Hb in A. cbn [truthy] in A. destruct (Nat.eqb_spec (bl_len b) 0); [contradiction|]. cbn [opt_kw] in A. rewrite EX; [exact A|intros []|intros [_ []]|rewrite A].
    intros [C|[(_ & d & C & _)|[(_ & a & c & C & _)|(_ & g & C)]]]; discriminate. }
  unfold chosen_baseline in CB. split.
  { intros s HB NS F0. assert (G : given (op_bcrystal op) = Some s) by (now apply given_some). rewrite G in CB. destruct (parsepars E [s; "0c"]) as [l|] eqn:PP; [|discriminate]. cbn [bind] in CB. apply parsepars_reads in PP.
    inversion PP as [|? [rho free] ? ? R1 PP2]; subst. inversion PP2 as [|? [z fz] ? ? R2 PP3]; subst. inversion PP3; subst. cbn [lift] in CB. injection CB as <-. exists rho, free. split; [exact R1|].
    assert (Z : z = 0 /\ fz = false).
    { destruct R2 as [(s' & E1 & E2 & E3)|(_ & E1 & _)]; [|exfalso; exact (E1 "0" eq_refl)]. cbn [fst snd] in *. change "0c" with ("0" ++ "c") in E1. apply append_last in E1 as [<- _]. rewrite F0 in E2. injection E2 as <-. auto. }
    destruct Z as [-> ->]. exists (-4 * PI * rho), 0. split; [apply KEEP; [reflexivity|discriminate]|]. intros r. unfold polyval. cbn [fold_left]. lra. }
  intros N1 N2. rewrite N1, N2 in CB. cbn [given] in CB. split.
  { intros s HB NS. assert (G : given (op_bpoly0 op) = Some s) by (now apply given_some). rewrite G in CB. destruct (parsepars E [s]) as [l|] eqn:PP; [|discriminate]. cbn [bind lift] in CB. injection CB as <-. apply parsepars_reads in PP.
    inversion PP as [|? p ? ? R1 PP2]; subst. inversion PP2; subst. exists p. split; [exact R1|]. apply KEEP; [reflexivity|discriminate]. }
  intros N3. rewrite N3 in CB. cbn [given] in CB. split.
  { intros s t HB. rewrite HB in CB. destruct (parsepars E [s; t]) as [l|] eqn:PP; [|discriminate]. cbn [bind lift] in CB. injection CB as <-. apply parsepars_reads in PP.
    inversion PP as [|? p1 ? ? R1 PP2]; subst. inversion PP2 as [|? p0 ? ? R0 PP3]; subst. inversion PP3; subst. exists p1, p0. split; [exact R1|]. split; [exact R0|]. split; [apply KEEP; [reflexivity|discriminate]|]. intros r. unfold polyval. cbn [fold_left]. lra. }
  intros N4. rewrite N4 in CB. split.
  { intros s t u HB. rewrite HB in CB. destruct (parsepars E [s; t; u]) as [l|] eqn:PP; [|discriminate]. cbn [bind lift] in CB. injection CB as <-. apply parsepars_reads in PP.
    inversion PP as [|? p2 ? ? R2 PP2]; subst. inversion PP2 as [|? p1 ? ? R1 PP3]; subst. inversion PP3 as [|? p0 ? ? R0 PP4]; subst. inversion PP4; subst. exists p2, p1, p0. split; [exact R2|]. split; [exact R1|]. split; [exact R0|]. split; [apply KEEP; [reflexivity|discriminate]|]. intros r. unfold polyval. cbn [fold_left]. lra. }
  intros N5 N6. rewrite N5, N6 in CB. cbn [given] in CB. split.
  { intros s t HB. rewrite HB in CB. destruct (parsepars E [s; t]) as [l|] eqn:PP; [|discriminate]. cbn [bind] in CB. apply parsepars_reads in PP.
    inversion PP as [|? [a fa] ? ? R1 PP2]; subst. inversion PP2 as [|? [b fb] ? ? R0 PP3]; subst. inversion PP3; subst. cbn [lift] in CB. injection CB as <-. exists (a, fa), (b, fb). split; [exact R1|]. split; [exact R0|]. apply KEEP; [reflexivity|discriminate]. }
  intros N7 N8. rewrite N7, N8 in CB. injection CB as <-. cbn [truthy opt_kw] in A. now apply KB; left.
Qed.

(** --baseline with the text of a baseline function: estimated from the points in the range. *)
Theorem C146_baseline_function :
  forall op file x0 rest y dx dy q (o' : obj) text f lo hi, let x := (x0 :: rest)%list in
    e_pdf E file = Ok (x, y, dx, dy, q) -> List.length y = List.length x -> List.length dx = List.length x -> List.length dy = List.length x ->
    StronglySorted Rle x ->
    op_bcrystal op = None -> op_bsrmise op = None -> op_bpoly0 op = None -> op_bpoly1 op = None -> op_bpoly2 op = None -> op_bseq op = None -> op_bspherical op = None ->
    op_baseline op = Some text -> e_baseline E text = Ok f ->
    match op_range op with Some (a, b) => lo = a /\ hi = b | None => lo = x0 /\ hi = last x x0 end ->
    lo <= last x x0 -> x0 <= hi ->
    prepare L E op [file] = Goes o' ->
    match estimate_bl L f (filter (in_range lo hi) x) (values_in_range lo hi x y) with
    | Ok b => o_attr o' "baseline" = VBase b
    | Err e => (e = NotImplementedErr \/ e = EstimationError) /\ o_attr o' "baseline" = VBase (zero_bl L)
    end.
Proof.
  intros op file x0 rest y dx dy q o' text f lo hi x P L1 L2 L3 HS N1 N2 N3 N4 N5 N6 N7 HT HF HR R1 R2 H.
  destruct (prepare_inv op file x y dx dy q o' P L1 L2 L3 H) as (_ & _ & bl & o & dg & qk & kw' & o1 & CB & HO & U & Q & SH & SS & AU & KW & AF & DV).
  destruct HO as (OX & OY & ODX & ODY & OQR & OQF & OF & CL & OEX & OET).
  assert (A := after_attr op bl dg qk kw' o o1 1%nat "baseline" _ SH KW AF CL eq_refl eq_refl ltac:(discriminate)).
  assert (A4 := after_attr op bl dg qk kw' o o1 4%nat "rng" _ SH KW AF CL eq_refl eq_refl ltac:(discriminate)). destruct AF as ((D1 & D2 & D3 & D4) & _).
  unfold chosen_baseline in CB. rewrite N1, N2, N3, N4, N5, N6, N7, HT, HF in CB. cbn [given] in CB. injection CB as <-. cbn [truthy opt_kw] in A.
  unfold pdf_defaultvars in DV. destruct (seq_steps _ o1) as [p [[]|e]] eqn:ES; [|discriminate]. destruct (seq_keeps [] _ _ (pdf_touches L []) o1 p _ ES) as ((P1 & P2 & P3 & P4) & PB & _).
  pose proof (C132_baseline_estimation L (pdf_nargs [] p) p x0 rest f lo hi) as C. cbn zeta in C. fold x in C. rewrite P2, D2, OY in C.
  assert (NA : forall k, ~ In k (pdf_nargs [] p)) by (intros k I; apply in_pdf_nargs in I; cbn in I; intuition).
  assert (PBL : o_attr p "baseline" = VBaseFn f) by (rewrite PB by (cbn; intuition discriminate); exact A).
  assert (PR : o_attr p "rng" = match op_range op with Some (a, b) => VRng (Some a) (Some b) | None => VNone end) by (rewrite PB, A4 by (cbn; intuition discriminate); destruct (op_range op) as [[a b]|]; reflexivity).
  specialize (C ltac:(congruence) HS L1 PBL (NA _)).
  match type of C with ?T -> _ => assert (HC : T) end.
  { destruct (op_range op) as [[a b]|].
    - right. split; [apply NA|]. destruct HR as [-> ->]. exists (Some a), (Some b). auto.
    - left. split; [left; exact PR|]. split; [left; exact PR|]. exact HR. }
  specialize (C HC R1 R2). destruct (estimate_bl L f _ _) as [b|e].
  - destruct C as (o2 & C1 & C2). rewrite DV in C1. injection C1 as <-. exact C2.
  - destruct e; destruct C as (o2 & C1 & C2); rewrite DV in C1; try discriminate; injection C1 as <-; auto.
Qed.

(** *** C147 *)
(** A file without uncertainties (zeros) and no uncertainty options: the uncertainties used
    are 0, not 5 percent of the maximum. *)
Theorem C147_missing_uncertainties_refuted :
  forall op file x0 rest y dx q (o' : obj), let x := (x0 :: rest)%list in
    e_pdf E file = Ok (x, y, dx, repeat 0 (List.length x), q) -> List.length y = List.length x -> List.length dx = List.length x ->
    op_dgmode op = None -> op_dg op = None -> prepare L E op [file] = Goes o' ->
    o_attr o' "effective_dy" = VArr (repeat 0 (List.length x)) /\
    (* instead of *)
    forall m, is_max m y -> 0 < m -> o_attr o' "effective_dy" <> VArr (repeat (5 / 100 * m) (List.length x)).
Proof.
  intros op file x0 rest y dx q o' x P L1 L2 HM HD H. destruct (C145_uncertainty_modes op file x0 rest y dx _ q o' P L1 L2 (repeat_length _ _) H) as (_ & _ & _ & _ & _ & A & _).
  rewrite (A HM HD). split; [reflexivity|]. intros m _ Hm C. unfold x in C. cbn in C. injection C as C _. lra.
Qed.
(** The mode for which --dg has no default ends in a TypeError, ptp-fraction in an
    AttributeError with numpy 2. *)
Theorem C147_modes_raise_refuted :
  forall op file x y dx dy q,
    e_pdf E file = Ok (x, y, dx, dy, q) -> List.length y = List.length x -> List.length dx = List.length x -> List.length dy = List.length x -> file <> "" ->
    op_pf op = None -> op_me op = None -> (exists bl, chosen_baseline (X:=X) E op = Goes bl) ->
    (op_dgmode op = Some Absolute -> op_dg op = None -> prepare L E op [file] = Raised TypeError) /\
    (op_dgmode op = Some PtpFraction -> e_ptp E = false -> prepare L E op [file] = Raised AttributeError).
Proof.
  intros op file x y dx dy q P L1 L2 L3 NF HPF HME (bl & CB). unfold prepare. rewrite HPF, HME, CB. cbn [pick_module given andthen].
  destruct (String.eqb_spec file ""); [contradiction|]. destruct (load_loaded file x y dx dy q P L1 L2 L3) as (o & LD & _). rewrite LD. unfold settings, uncertainties. split.
  - intros -> ->. reflexivity.
  - intros -> ->. reflexivity.
Qed.

(** *** C148 *)
(** Every use of --pf and of --me ends the run, whatever the text denotes. *)
Theorem C148_peak_function_refuted :
  forall op file s, op_pf op = Some s -> s <> "" -> prepare L E op [file] = Declined.
Proof. intros op file s H N. unfold prepare. rewrite pick_none by reflexivity. assert (G : given (op_pf op) = Some s) by (now apply given_some). now rewrite G. Qed.
Theorem C148_evaluator_refuted :
  forall op file s, op_pf op = None -> op_me op = Some s -> s <> "" -> prepare L E op [file] = Declined.
Proof. intros op file s HP H N. unfold prepare. rewrite !pick_none by reflexivity. assert (G : given (op_me op) = Some s) by (now apply given_some). now rewrite G, HP. Qed.

(** *** C149 *)
(** --no-nyquist: resampling is still on whenever qmax is positive.  --cres 0 and
    --supersample 0 are ignored. *)
Theorem C149_switching_off_refuted :
  forall op file x0 rest y dx dy q (o' : obj), let x := (x0 :: rest)%list in
    e_pdf E file = Ok (x, y, dx, dy, q) -> List.length y = List.length x -> List.length dx = List.length x -> List.length dy = List.length x ->
    prepare L E op [file] = Goes o' ->
    (op_nyquist op = Some false -> forall v, o_attr o' "qmax" = VNum v -> 0 < v -> o_attr o' "nyquist" = VBool true) /\
    (op_supersample op = Some 0 -> o_attr o' "supersample" = VNum 4) /\
    (op_cres op = Some 0 -> forall v, o_attr o' "qmax" = VNum v -> 0 < v -> o_attr o' "cres" = VNum (PI / v)).
Proof.
  intros op file x0 rest y dx dy q o' x P L1 L2 L3 H.
  destruct (prepare_inv op file x y dx dy q o' P L1 L2 L3 H) as (_ & _ & bl & o & dg & qk & kw' & o1 & CB & HO & U & Q & SH & SS & AU & KW & AF & DV).
  destruct HO as (OX & OY & ODX & ODY & OQR & OQF & OF & CL & OEX & OET).
  pose proof (fun i k c => after_attr op bl dg qk kw' o o1 i k c SH KW AF CL) as AT. destruct AF as ((D1 & D2 & D3 & D4) & _). assert (O1X : o_x o1 = Some x) by congruence.
  destruct (C48_pdf_documented_defaults L [] o1 o' x0 rest O1X DV) as (_ & _ & KNy & _ & KSu & KC & _).
  assert (Z : nonzero (Some 0) = None) by (now apply nonzero_none; right).
  split; [|split].
  - intros HN v HV HP. assert (A := AT 6%nat "nyquist" _ eq_refl eq_refl ltac:(discriminate)). rewrite HN in A. destruct (KNy (or_introl A)) as (v' & V1 & b & V2 & V3). rewrite HV in V1. injection V1 as <-. rewrite V2. f_equal. now apply V3.
  - intros HS. apply KSu. left. rewrite (AT 7%nat "supersample" _ eq_refl eq_refl ltac:(discriminate)), HS, Z. reflexivity.
  - intros HC v HV HP. assert (A := AT 2%nat "cres" _ eq_refl eq_refl ltac:(discriminate)). rewrite HC, Z in A. destruct (KC (or_introl A)) as (v' & V1 & V2 & _). rewrite HV in V1. injection V1 as <-. now apply V2.
Qed.

(** *** C150 *)
(** A baseline from a file of values is dropped: the extraction runs with the zero baseline. *)
Theorem C150_baseline_from_values_refuted :
  forall op file x0 rest y dx dy q (o' : obj) s, let x := (x0 :: rest)%list in
    e_pdf E file = Ok (x, y, dx, dy, q) -> List.length y = List.length x -> List.length dx = List.length x -> List.length dy = List.length x ->
    op_bcrystal op = None -> op_bsrmise op = None -> op_bpoly0 op = None -> op_bpoly1 op = None -> op_bpoly2 op = None ->
    op_bseq op = Some s -> s <> "" -> prepare L E op [file] = Goes o' ->
    e_sequence E s = Ok tt /\ o_attr o' "baseline" = VBase (zero_bl L).
Proof.
  intros op file x0 rest y dx dy q o' s x P L1 L2 L3 N1 N2 N3 N4 N5 HS NS H.
  destruct (prepare_inv op file x y dx dy q o' P L1 L2 L3 H) as (_ & _ & bl & o & dg & qk & kw' & o1 & CB & HO & U & Q & SH & SS & AU & KW & AF & DV).
  destruct HO as (OX & OY & ODX & ODY & OQR & OQF & OF & CL & OEX & OET).
  assert (A := after_attr op bl dg qk kw' o o1 1%nat "baseline" _ SH KW AF CL eq_refl eq_refl ltac:(discriminate)). destruct AF as ((D1 & D2 & D3 & D4) & _). assert (O1X : o_x o1 = Some x) by congruence.
  unfold chosen_baseline in CB. assert (G : given (op_bseq op) = Some s) by (now apply given_some). rewrite N1, N2, N3, N4, N5, G in CB. cbn [given] in CB.
  destruct (e_sequence E s) as [[]|] eqn:ES; [|discriminate]. cbn [bind lift] in CB. injection CB as <-. split; [reflexivity|].
  destruct (C48_pdf_documented_defaults L [] o1 o' x0 rest O1X DV) as (_ & _ & _ & _ & _ & _ & _ & _ & _ & KB & _). now apply KB; left.
Qed.

(** *** C151 *)
(** --bsrmise raises for every file. *)
Theorem C151_baseline_from_extraction_refuted :
  forall op file s, op_pf op = None -> op_me op = None -> op_bcrystal op = None -> op_bsrmise op = Some s -> s <> "" -> exists e, prepare L E op [file] = Raised e.
Proof.
  intros op file s HP HM N1 HS NS. unfold prepare. rewrite HP, HM. cbn [pick_module given andthen]. unfold chosen_baseline. assert (G : given (op_bsrmise op) = Some s) by (now apply given_some). rewrite N1, G. cbn [given].
  unfold read_srmise. destruct (e_text E s); eexists; reflexivity.
Qed.
End CliProps.

(** The text of the input file is never used as a saved extraction: with the same data in it,
    two files lead to the same settings, whatever they say. *)
Theorem C151_saved_settings_refuted :
  forall {F BF EM PK X : Type} (L : lib F BF baseline EM PK) (E : env F BF EM PK X) (text : string -> option (list string)) op file,
    op_bsrmise op = None ->
    let E' := mkEnv (e_float E) (e_pf E) (e_me E) (e_baseline E) (e_sequence E) text (e_pdf E) (e_ptp E) (e_extract E) (e_writestr E) (e_writepwastr E) (e_open E) in
    prepare L E' op [file] = prepare L E op [file].
Proof.
  intros F BF EM PK X L E text op file HB E'.
  assert (LD : load L E' file = load L E file) by (unfold load, read_srmise, E'; cbn [e_text e_pdf]; destruct (text file), (e_text E file); reflexivity).
  assert (CB : chosen_baseline (X:=X) E' op = chosen_baseline E op) by (unfold chosen_baseline; rewrite HB; reflexivity).
  unfold prepare. rewrite LD, CB. reflexivity.
Qed.

(** *** C152 *)
Section Saving.
Context {F BF EM PK X : Type}.
Variable L : lib F BF baseline EM PK.
Variable E : @env F BF EM PK X.
Notation obj := (obj F BF baseline EM PK X).

(** What is written: nothing if the extraction raises; else the requested files, with the
    text of the final state. *)
Theorem C152_saving :
  forall op (o o1 : obj) r, (if op_extract op then e_extract E o else (o, Ok tt)) = (o1, r) ->
    (forall e, r = Err e -> finish E op o = (o1, [], Err e)) /\
    (r = Ok tt ->
      (op_save op = None -> op_pwa op = None -> finish E op o = (o1, [], Ok tt)) /\
      (forall f t, op_save op = Some f -> f <> "" -> op_pwa op = None -> e_writestr E o1 = Ok t -> e_open E f = Ok tt -> finish E op o = (o1, [(f, t)], Ok tt)) /\
      (forall g u, op_save op = None -> op_pwa op = Some g -> g <> "" -> e_writepwastr E o1 = Ok u -> e_open E g = Ok tt -> finish E op o = (o1, [(g, u)], Ok tt)) /\
      (forall f t g u, op_save op = Some f -> f <> "" -> op_pwa op = Some g -> g <> "" -> e_writestr E o1 = Ok t -> e_open E f = Ok tt -> e_writepwastr E o1 = Ok u -> e_open E g = Ok tt ->
         finish E op o = (o1, [(f, t); (g, u)], Ok tt)) /\
      (* SrMiseFileError from one of the two is reported and does not stop the other *)
      (forall f g u, op_save op = Some f -> f <> "" -> op_pwa op = Some g -> g <> "" -> e_writestr E o1 = Err FileError -> e_writepwastr E o1 = Ok u -> e_open E g = Ok tt ->
         finish E op o = (o1, [(g, u)], Ok tt)) /\
      (forall f t g, op_save op = Some f -> f <> "" -> op_pwa op = Some g -> g <> "" -> e_writestr E o1 = Ok t -> e_open E f = Ok tt -> e_writepwastr E o1 = Err FileError ->
         finish E op o = (o1, [(f, t)], Ok tt))).
Proof.
  intros op o o1 r H. unfold finish. rewrite H. split; [intros e ->; reflexivity|]. intros ->. unfold save.
  assert (G : forall f, f <> "" -> given (Some f) = Some f) by (intros f N; now apply given_some). split; [intros -> ->; reflexivity|]. split; [|split; [|split; [|split]]].
  - intros f t -> N -> W O. rewrite (G f N), W. cbn [bind]. rewrite O. reflexivity.
  - intros f t -> -> N W O. rewrite (G f N), W. cbn [given bind]. rewrite O. reflexivity.
  - intros f t g u -> N -> N' W O W' O'. rewrite (G f N), (G g N'), W. cbn [bind]. rewrite O. cbn [bind]. rewrite W'. cbn [bind]. rewrite O'. reflexivity.
  - intros f g u -> N -> N' W W' O'. rewrite (G f N), (G g N'), W. cbn [bind]. rewrite W'. cbn [bind]. rewrite O'. reflexivity.
  - intros f t g -> N -> N' W O W'. rewrite (G f N), (G g N'), W. cbn [bind]. rewrite O. cbn [bind]. rewrite W'. reflexivity.
Qed.
(** A save file that cannot be opened (OSError, or any exception but SrMiseFileError) ends
    the program: the summary asked for as well is not written. *)
Theorem C152_failed_save_refuted :
  forall op (o o1 : obj) f t g u e, (if op_extract op then e_extract E o else (o, Ok tt)) = (o1, Ok tt) ->
    op_save op = Some f -> f <> "" -> e_writestr E o1 = Ok t -> e_open E f = Err e -> e <> FileError ->
    op_pwa op = Some g -> e_writepwastr E o1 = Ok u -> e_open E g = Ok tt ->
    finish E op o = (o1, [], Err e).
Proof.
  intros op o o1 f t g u e H HS N W O NE HP W' O'. unfold finish. rewrite H. unfold save. assert (G : given (op_save op) = Some f) by (now apply given_some). rewrite G, W. cbn [bind]. rewrite O. cbn [bind]. destruct e; first [reflexivity|contradiction].
Qed.
(** A summary without an extraction: the exception of writepwastr escapes. *)
Theorem C152_summary_without_extraction_refuted :
  forall op (o : obj) g e, op_extract op = false -> op_save op = None -> op_pwa op = Some g -> g <> "" ->
    e_writepwastr E o = Err e -> e <> FileError -> finish E op o = (o, [], Err e).
Proof.
  intros op o g e H HS HP N W NE. unfold finish. rewrite H, HS. unfold save at 1. cbn [given]. unfold save. assert (G : given (op_pwa op) = Some g) by (now apply given_some). rewrite G, W. cbn [bind]. destruct e; first [reflexivity|contradiction].
Qed.
End Saving.

(** ** Non-vacuity: three points; --range 1 2 --bcrystal 3c --dg 2 --save out *)
Section Instances.
Let xlib : lib R unit baseline unit unit := mkLib (fun w => w) (Poly []) tt tt (fun _ x _ => Ok (Poly [(fold_right Rplus 0 x, true)])) (fun _ _ => Ok 20).
Let xfloat (s : string) : result R := if String.eqb s "0" then Ok 0 else if String.eqb s "3" then Ok 3 else if String.eqb s "21" then Ok 21 else Err ValueError.
Let xenv : env R unit unit unit unit :=
  mkEnv xfloat (fun _ => Ok 1) (fun _ => Ok tt) (fun _ => Ok tt) (fun _ => Ok tt) (fun _ => None)
    (fun _ => Ok ([1; 2; 3], [0; 1; 0], [0; 0; 0], [0; 0; 0], 0)) false (fun o => (o, Ok tt)) (fun _ => Ok "srmise") (fun _ => Err GenericException) (fun _ => Ok tt).
Let xopt (dg : option R) (crystal bseq text : option string) : options :=
  mkOptions true (Some (1, 2)) (Some "21") (Some false) None None None None text crystal None None None None bseq None None dg None (Some "out") None.

Example C144_nonvacuous : exists o', prepare xlib xenv (xopt (Some 2) (Some "3c") None None) ["a.gr"] = Goes o' /\
  o_attr o' "rng" = VRng (Some 1) (Some 2) /\ o_attr o' "qmax" = VNum 21 /\ o_attr o' "nyquist" = VBool true /\ o_attr o' "effective_dy" = VArr [2; 2; 2] /\
  (exists a, o_attr o' "baseline" = VBase (Poly [(a, false); (0, false)]) /\ a = -4 * PI * 3) /\
  finish xenv (xopt (Some 2) (Some "3c") None None) o' = (o', [("out", "srmise")], Ok tt).
Proof.
  set (op := xopt (Some 2) (Some "3c") None None).
  destruct (C144_valid_options_are_accepted xlib xenv op "a.gr" 1 [2; 3] [0; 1; 0] [0; 0; 0] [0; 0; 0] 0) as (o' & H); try reflexivity; try discriminate.
  { eexists. split; [reflexivity|]. left. discriminate. }
  { right. right. exists "21", 21. split; [reflexivity|]. split; [discriminate|reflexivity]. }
  exists o'. split; [exact H|].
  destruct (C144_options_reach_the_extraction xlib xenv op "a.gr" 1 [2; 3] [0; 1; 0] [0; 0; 0] [0; 0; 0] 0 o' eq_refl eq_refl eq_refl eq_refl H) as (_ & _ & _ & _ & _ & _ & A & _ & _ & _ & B & _).
  destruct (B "21" eq_refl ltac:(discriminate) ltac:(discriminate)) as (v & FV & B'). assert (v = 21) by (cbn in FV; congruence). subst v.
  destruct (C149_switching_off_refuted xlib xenv op "a.gr" 1 [2; 3] [0; 1; 0] [0; 0; 0] [0; 0; 0] 0 o' eq_refl eq_refl eq_refl eq_refl H) as (C & _).
  destruct (C145_uncertainty_modes xlib xenv op "a.gr" 1 [2; 3] [0; 1; 0] [0; 0; 0] [0; 0; 0] 0 o' eq_refl eq_refl eq_refl eq_refl H) as (D & _).
  destruct (C146_baseline_options xlib xenv op "a.gr" 1 [2; 3] [0; 1; 0] [0; 0; 0] [0; 0; 0] 0 o' eq_refl eq_refl eq_refl eq_refl H) as (G & _).
  split; [now apply A|]. split; [exact B'|]. split; [apply (C eq_refl 21 B'); lra|]. split; [now apply (D (or_intror eq_refl) 2)|]. split; [|reflexivity].
  destruct (G "3c" eq_refl ltac:(discriminate) eq_refl) as (rho & free & RD & a & b & BL & PV).
  assert (rho = 3 /\ free = false).
  { destruct RD as [(s' & E1 & E2 & E3)|(_ & E1 & _)]; [|exfalso; exact (E1 "3" eq_refl)]. change "3c" with ("3" ++ "c") in E1. apply append_last in E1 as [<- _]. cbn in E2, E3. split; congruence. }
  destruct H0 as [-> ->]. assert (b = 0) by (specialize (PV 0); unfold polyval in PV; cbn [fold_left] in PV; lra). assert (a = -4 * PI * 3) by (pose proof (PV 1) as P1; unfold polyval in P1; cbn [fold_left] in P1; lra). subst b. exists a. split; [exact BL|assumption].
Qed.
(** No uncertainty option: zeros; --bseq: no baseline; --baseline: estimated in the range. *)
Example C147_nonvacuous : exists o', prepare xlib xenv (xopt None None (Some "values") None) ["a.gr"] = Goes o' /\
  o_attr o' "effective_dy" = VArr [0; 0; 0] /\ o_attr o' "baseline" = VBase (Poly []).
Proof.
  set (op := xopt None None (Some "values") None).
  destruct (C144_valid_options_are_accepted xlib xenv op "a.gr" 1 [2; 3] [0; 1; 0] [0; 0; 0] [0; 0; 0] 0) as (o' & H); try reflexivity; try discriminate.
  { eexists. split; [reflexivity|]. left. discriminate. }
  { right. right. exists "21", 21. split; [reflexivity|]. split; [discriminate|reflexivity]. }
  exists o'. split; [exact H|]. destruct (C147_missing_uncertainties_refuted xlib xenv op "a.gr" 1 [2; 3] [0; 1; 0] [0; 0; 0] 0 o' eq_refl eq_refl eq_refl eq_refl eq_refl H) as (A & _). split; [exact A|].
  destruct (C150_baseline_from_values_refuted xlib xenv op "a.gr" 1 [2; 3] [0; 1; 0] [0; 0; 0] [0; 0; 0] 0 o' "values" eq_refl eq_refl eq_refl eq_refl eq_refl eq_refl eq_refl eq_refl eq_refl eq_refl ltac:(discriminate) H) as (_ & B). exact B.
Qed.
(** --baseline: estimated from the two points in the range. *)
Example C146_nonvacuous : exists o', prepare xlib xenv (xopt None None None (Some "Polynomial(degree=0)")) ["a.gr"] = Goes o' /\
  o_attr o' "baseline" = VBase (Poly [(1 + (2 + 0), true)]).
Proof.
  set (op := xopt None None None (Some "Polynomial(degree=0)")). assert (S : StronglySorted Rle [1; 2; 3]) by (repeat constructor; lra).
  destruct (C144_valid_options_are_accepted xlib xenv op "a.gr" 1 [2; 3] [0; 1; 0] [0; 0; 0] [0; 0; 0] 0) as (o' & H); try reflexivity; try discriminate.
  { eexists. split; [reflexivity|]. right. exists tt, 1, 2. split; [reflexivity|]. split; [exact S|]. split; [split; reflexivity|]. split; [cbn; lra|]. split; [lra|]. discriminate. }
  { right. right. exists "21", 21. split; [reflexivity|]. split; [discriminate|reflexivity]. }
  exists o'. split; [exact H|].
  pose proof (C146_baseline_function xlib xenv op "a.gr" 1 [2; 3] [0; 1; 0] [0; 0; 0] [0; 0; 0] 0 o' "Polynomial(degree=0)" tt 1 2 eq_refl eq_refl eq_refl eq_refl S eq_refl eq_refl eq_refl eq_refl eq_refl eq_refl eq_refl eq_refl eq_refl (conj eq_refl eq_refl)) as B.
  specialize (B ltac:(cbn; lra) ltac:(lra) H). cbn [estimate_bl xlib] in B. rewrite B. do 2 f_equal.
  assert (FI : filter (in_range 1 2) [1; 2; 3] = [1; 2]).
  { cbn [filter]. unfold in_range. rewrite !(proj2 (Rleb_spec _ _)) by lra. rewrite (Rltb_negb 2 3), (proj2 (Rltb_spec 2 3)) by lra. cbn [negb andb]. rewrite ?andb_false_r. reflexivity. }
  rewrite FI. reflexivity.
Qed.
End Instances.

Print Assumptions C144_options_reach_the_extraction.
Print Assumptions C144_valid_options_are_accepted.
Print Assumptions C144_exactly_one_file.
Print Assumptions C145_uncertainty_modes.
Print Assumptions C146_baseline_options.
Print Assumptions C146_baseline_function.
Print Assumptions C147_missing_uncertainties_refuted.
Print Assumptions C147_modes_raise_refuted.
Print Assumptions C148_peak_function_refuted.
Print Assumptions C148_evaluator_refuted.
Print Assumptions C149_switching_off_refuted.
Print Assumptions C150_baseline_from_values_refuted.
Print Assumptions C151_baseline_from_extraction_refuted.
Print Assumptions C151_saved_settings_refuted.
Print Assumptions C152_saving.
Print Assumptions C152_failed_save_refuted.
Print Assumptions C152_summary_without_extraction_refuted.

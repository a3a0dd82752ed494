(** Files: what they contain after every method that writes them, also when the program is
    interrupted or the operating system reports an error (C190-C195). *)
From Coq Require Import Reals String Ascii Lia.
From Verif Require Import Prelude Evaluators Dataset DatasetProps DatasetText DatasetTextProofs DatasetTextLines DatasetTextHeader DatasetTextProps Tracer TracerProps MultiModel Files.
From Verif Require Serial.
Open Scope list_scope.

(** [d'] is [d] but for the file [f], which contains [c] *)
Definition only (d : disk) (f : string) (c : chars) (d' : disk) : Prop := (forall g, g <> f -> d' g = d g) /\ d' f = Some c.
Lemma only_put d f c c' d' : only d f c d' -> only d f c' (put d' f c').
Proof.
  intros (O & _). unfold put. split; [intros g NE; destruct (String.eqb_spec g f); [contradiction|now apply O]|now rewrite String.eqb_refl].
Qed.
Lemma only_new d f : only d f [] (put d f []).
Proof. unfold put. split; [intros g NE; destruct (String.eqb_spec g f); [contradiction|reflexivity]|now rewrite String.eqb_refl]. Qed.

(** after open(): [w] is what write() has got so far *)
Definition holds (d : disk) (f : string) (w : chars) (s : pc) : Prop :=
  exists c, only d f c (p_disk s) /\ match p_open s with Some (g, b) => g = f /\ c ++ b = w | None => c = w end.
Lemma holds_flush d f w p s p' s' : holds d f w s -> step (p, s) (p', s') -> (exists c k, p = Call c k) \/ (p' = p /\ holds d f w s').
Proof.
  intros (c & O & H) S. inversion S as [c0 k s0 s1 r A|p0 d0 g b n c0 E]; subst; [left; eauto|right]. split; [reflexivity|]. cbn [p_disk p_open] in *. destruct H as (<- & H). destruct O as (O & E'). rewrite E in E'. injection E' as ->.
  exists (c ++ firstn n b). cbn [p_disk p_open]. split; [apply (only_put d _ c); now split|]. split; [reflexivity|]. rewrite <- app_assoc, firstn_skipn. exact H.
Qed.
Lemma holds_write d f w t s s' r : holds d f w s -> p_open s <> None -> answer s (CWrite t) s' r ->
  p_open s' <> None /\ ((r = Ok tt /\ holds d f (w ++ t) s') \/ exists e n, r = Err e /\ holds d f (w ++ firstn n t) s').
Proof.
  intros (c & O & H) NO A. inversion A; subst; cbn [p_disk p_open] in *; destruct H as (<- & H); (split; [discriminate|]).
  - left. split; [reflexivity|]. exists c. cbn [p_disk p_open]. rewrite <- H, app_assoc. auto.
  - right. exists e, n. split; [reflexivity|]. exists c. cbn [p_disk p_open]. rewrite <- H, app_assoc. auto.
Qed.
Lemma holds_close d f w s s' r : holds d f w s -> answer s CClose s' r ->
  p_open s' = None /\ ((r = Ok tt /\ holds d f w s') \/ exists e n, r = Err e /\ holds d f (firstn n w) s').
Proof.
  intros (c & O & H) A. inversion A as [| | | |d0 g b c0 E|d0 g b c0 n e E]; subst; cbn [p_disk p_open] in *; destruct H as (<- & H); (split; [reflexivity|]); pose proof O as (_ & E'); rewrite E in E'; injection E' as ->.
  - left. split; [reflexivity|]. exists (c ++ b). cbn [p_disk p_open]. split; [now apply (only_put d _ c)|exact H].
  - right. exists e, (List.length c + n)%nat. split; [reflexivity|]. exists (c ++ firstn n b). cbn [p_disk p_open]. split; [now apply (only_put d _ c)|].
    rewrite <- H, firstn_app, (firstn_all2 c) by lia. f_equal. f_equal. lia.
Qed.
Lemma holds_file d f w s : holds d f w s -> (forall g, g <> f -> p_disk s g = d g) /\ exists n, p_disk s f = Some (firstn n w) /\ (p_open s = None -> p_disk s f = Some w).
Proof.
  intros (c & (O & E) & H). split; [exact O|]. exists (List.length c). destruct (p_open s) as [(g, b)|].
  - destruct H as (_ & <-). rewrite firstn_app, Nat.sub_diag, firstn_all, firstn_O, app_nil_r. split; [exact E|discriminate].
  - rewrite <- H, firstn_all. auto.
Qed.

(** ** Executions *)
Lemma steps_ind_inv (I : prog * pc -> Prop) x y : I x -> (forall a b, I a -> step a b -> I b) -> steps x y -> I y.
Proof. intros B H S. induction S as [x|x y z S1 S2 IH]; [exact B|]. apply IH. now apply (H x). Qed.
Definition finish_ : prog := then_ CClose (Ret (Ok tt)).
Definition body (t : chars) : prog := then_ (CWrite t) finish_.
(** the states after open() *)
Definition in_body (d : disk) (f : string) (t : chars) (x : prog * pc) : Prop :=
  (fst x = body t /\ holds d f [] (snd x) /\ p_open (snd x) <> None) \/
  (fst x = finish_ /\ holds d f t (snd x) /\ p_open (snd x) <> None) \/
  (fst x = Ret (Ok tt) /\ holds d f t (snd x) /\ p_open (snd x) = None) \/
  exists e n, fst x = Ret (Err e) /\ holds d f (firstn n t) (snd x).
Lemma flush_open p s s' : p_open s <> None -> step (p, s) (p, s') -> (forall c k, p <> Call c k) -> p_open s' <> None.
Proof. intros _ S N. inversion S; subst; [exfalso; eapply N; reflexivity|cbn; discriminate]. Qed.
Lemma in_body_step d f t x y : in_body d f t x -> step x y -> in_body d f t y.
Proof.
  destruct x as (p, s), y as (p', s'). intros [(E & H & NO)|[(E & H & NO)|[(E & H & NO)|(e & n & E & H)]]] S; cbn [fst snd] in *; subst p.
  - inversion S as [c k s0 s1 r A|p0 d0 g b n c E]; subst.
    + destruct (holds_write _ _ _ _ _ _ _ H NO A) as (NO' & [(-> & H')|(e & n & -> & H')]); [right; left; auto|]. right; right; right. exists e, n. auto.
    + left. destruct (holds_flush _ _ _ _ _ _ _ H (s_flush (Ret (Ok tt)) d0 g b n c E)) as [(? & ? & ?)|(_ & H')]; [discriminate|]. split; [reflexivity|]. split; [exact H'|discriminate].
  - inversion S as [c k s0 s1 r A|p0 d0 g b n c E]; subst.
    + destruct (holds_close _ _ _ _ _ _ H A) as (NO' & [(-> & H')|(e & n & -> & H')]); [right; right; left; auto|]. right; right; right. exists e, n. auto.
    + right; left. destruct (holds_flush _ _ _ _ _ _ _ H (s_flush (Ret (Ok tt)) d0 g b n c E)) as [(? & ? & ?)|(_ & H')]; [discriminate|]. split; [reflexivity|]. split; [exact H'|discriminate].
  - inversion S; subst; cbn in NO; discriminate.
  - destruct (holds_flush _ _ _ _ _ _ _ H S) as [(? & ? & ?)|( -> & H')]; [discriminate|]. right; right; right. exists e, n. auto.
Qed.
(** what a file may contain at any time of [open; write t; close] *)
Definition writing (d : disk) (f : string) (t : chars) (x : prog * pc) : Prop :=
  (x = (then_ (COpen f) (body t), mkPc d None)) \/ (exists e, x = (Ret (Err e), mkPc d None)) \/ in_body d f t x.
Lemma writing_step d f t x y : writing d f t x -> step x y -> writing d f t y.
Proof.
  intros [ -> |[(e & ->)|H]] S.
  - inversion S as [c k s0 s1 r A|]; subst. inversion A; subst; [|right; left; eauto]. right; right. left. cbn [fst snd]. split; [reflexivity|]. split; [|discriminate]. exists []. split; [apply only_new|now split].
  - inversion S.
  - right; right. now apply (in_body_step d f t x).
Qed.
Lemma writing_file d f t p s : writing d f t (p, s) ->
  (forall g, g <> f -> p_disk s g = d g) /\ (p_disk s f = d f \/ exists n, p_disk s f = Some (firstn n t)) /\ (p = Ret (Ok tt) -> p_disk s f = Some t).
Proof.
  intros [E|[(e & E)|H]].
  - injection E as -> ->. split; [reflexivity|]. split; [now left|discriminate].
  - injection E as -> ->. split; [reflexivity|]. split; [now left|discriminate].
  - destruct H as [(E & H & NO)|[(E & H & NO)|[(E & H & NO)|(e & n & E & H)]]]; cbn [fst snd] in *; subst p; destruct (holds_file _ _ _ _ H) as (O & m & M1 & M2); (split; [exact O|]).
    + split; [right; exists 0%nat; rewrite M1; now rewrite firstn_nil|discriminate].
    + split; [right; eauto|discriminate].
    + split; [right; eauto|intros _; auto].
    + split; [right; exists (Nat.min m n); rewrite M1; now rewrite firstn_firstn|discriminate].
Qed.

(** ** C190 *)
Theorem C190_text_first :
  forall text f d p s, steps (text_first text f, mkPc d None) (p, s) ->
    (forall g, g <> f -> p_disk s g = d g) /\
    (p_disk s f = d f \/ exists t n, text = Ok t /\ p_disk s f = Some (firstn n t)) /\
    (forall e, text = Err e -> p = Ret (Err e) /\ forall g, p_disk s g = d g) /\
    (p = Ret (Ok tt) -> exists t, text = Ok t /\ p_disk s f = Some t).
Proof.
  intros [t|e] f d p s S; cbn [text_first] in S.
  - assert (W : writing d f t (p, s)) by (apply (steps_ind_inv (writing d f t) _ _ (or_introl eq_refl)); [apply writing_step|exact S]).
    destruct (writing_file _ _ _ _ _ W) as (O & F & D). split; [exact O|]. split; [destruct F as [F|(n & F)]; [now left|right; eauto]|]. split; [discriminate|]. intros E. eauto.
  - assert (Q : (p, s) = (Ret (Err e), mkPc d None)) by (apply (steps_ind_inv (fun x => x = (Ret (Err e), mkPc d None)) _ _ eq_refl); [intros a b -> ST; inversion ST|exact S]). injection Q as -> ->.
    split; [reflexivity|]. split; [now left|]. split; [intros e' [= ->]; now split|discriminate].
Qed.
(** Without errors of the operating system the writer succeeds. *)
Lemma run_body d f t : exists s, steps (body t, mkPc (put d f []) (Some (f, []))) (Ret (Ok tt), s) /\ p_disk s f = Some t.
Proof.
  exists (mkPc (put (put d f []) f ([] ++ [] ++ t)) None). split; [|cbn; unfold put; now rewrite String.eqb_refl].
  eapply steps_next; [apply s_call, a_write|]. cbv beta iota. eapply steps_next; [apply s_call, a_close; unfold put; now rewrite String.eqb_refl|]. apply steps_here.
Qed.
Theorem C190_can_succeed : forall t f d, exists s, steps (text_first (Ok t) f, mkPc d None) (Ret (Ok tt), s).
Proof.
  intros t f d. destruct (run_body d f t) as (s & S & _). exists s. eapply steps_next; [apply s_call, a_open|]. exact S.
Qed.

(** ** C191 *)
(** "An interrupted write leaves the old or the new contents": any part of the new text may
    be what is left, also none. *)
Theorem C191_interrupted_write_refuted :
  forall t f d n, exists p s, steps (text_first (Ok t) f, mkPc d None) (p, s) /\ p <> Ret (Ok tt) /\ p_disk s f = Some (firstn n t).
Proof.
  intros t f d n. eexists _, _. split; [|split].
  - eapply steps_next; [apply s_call, a_open|]. cbv beta iota. eapply steps_next; [apply s_call, a_write|]. cbv beta iota.
    eapply steps_next; [apply (s_flush _ _ _ _ n []); unfold put; now rewrite String.eqb_refl|]. apply steps_here.
  - discriminate.
  - cbn [p_disk app]. unfold put. now rewrite String.eqb_refl.
Qed.

(** ** C192 *)
Definition is_ascii (t : chars) : Prop := forall a, In a t -> (nat_of_ascii a < 128)%nat.
Lemma decode_ascii t : is_ascii t -> decode t = Ok t.
Proof. intros H. unfold decode. replace (forallb _ t) with true; [reflexivity|]. symmetry. apply forallb_forall. intros a I. apply Nat.ltb_lt, H, I. Qed.
Lemma ascii_app a b : is_ascii a -> is_ascii b -> is_ascii (a ++ b).
Proof. intros H1 H2 x I. apply in_app_iff in I as [I|I]; auto. Qed.
Lemma ascii_known t : forallb (fun a => nat_of_ascii a <? 128)%nat t = true -> is_ascii t.
Proof. intros H a I. apply Nat.ltb_lt. exact (proj1 (forallb_forall _ _) H a I). Qed.
Lemma ascii_class (p : ascii -> bool) t : (forall a, p a = true -> (nat_of_ascii a <? 128)%nat = true) -> forallb p t = true -> is_ascii t.
Proof. intros HP H a I. apply Nat.ltb_lt, HP. exact (proj1 (forallb_forall _ _) H a I). Qed.
Lemma ascii_digits d : digits d -> is_ascii d.
Proof. intros (_ & H). apply (ascii_class digit); [|exact H]. intros [[] [] [] [] [] [] [] []] E; try reflexivity; discriminate E. Qed.
Lemma ascii_name k : name k -> is_ascii k.
Proof. intros (_ & H). apply (ascii_class is_word); [|exact H]. intros [[] [] [] [] [] [] [] []] E; try reflexivity; discriminate E. Qed.
Lemma ascii_sign u : sign u -> is_ascii u.
Proof. intros [ -> |[ -> | -> ]]; now apply ascii_known. Qed.
Lemma ascii_numeral t : numeral t -> is_ascii t.
Proof.
  intros (sg & d & fr & ex & -> & S & D & F & X). apply ascii_app; [now apply ascii_sign|]. apply ascii_app; [now apply ascii_digits|]. apply ascii_app.
  - destruct F as [ -> |(u & -> & U)]; [now apply ascii_known|]. apply (ascii_app ["."%char]); [now apply ascii_known|now apply ascii_digits].
  - destruct X as [ -> |(e & s & u & -> & [ -> | -> ] & S' & U)]; [now apply ascii_known| |]; (apply (ascii_app [_]); [now apply ascii_known|]); (apply ascii_app; [now apply ascii_sign|now apply ascii_digits]).
Qed.
Lemma ascii_join ls : (forall l, In l ls -> is_ascii l) -> is_ascii (join_lines ls).
Proof.
  intros H a I. unfold join_lines in I. apply in_concat in I as (x & IX & I). apply in_map_iff in IX as (l & <- & IL). apply in_app_iff in I as [I|[<-|[]]]; [now apply (H l)|cbn; lia].
Qed.
Lemma ok_inj {A} (a b : A) : Ok a = Ok b -> a = b. Proof. congruence. Qed.
Lemma data_ascii gen r : forall g dr dg ls, (forall x, In x (r ++ g ++ dr ++ dg) -> is_ascii (gen x)) -> data_lines gen r g dr dg = Ok ls -> forall l, In l ls -> is_ascii l.
Proof.
  induction r as [|a r IH]; intros g dr dg ls H E l I; cbn [data_lines] in E; [injection E as <-; destruct I|].
  destruct g as [|b g]; [discriminate|]. destruct dr as [|c dr]; [discriminate|]. destruct dg as [|e dg]; [discriminate|]. destruct (data_lines gen r g dr dg) as [rest|] eqn:ER; [|discriminate]. cbn [bind] in E. injection E as <-.
  destruct I as [<-|I].
  - assert (A : forall x, In x [a; b; c; e] -> is_ascii (gen x)) by (intros x IX; apply H; change (In x ((a :: r) ++ (b :: g) ++ (c :: dr) ++ (e :: dg))); rewrite !in_app_iff; cbn [In] in IX |- *; intuition).
    assert (B : is_ascii (txt " ")) by (now apply ascii_known). apply ascii_app; [apply A; cbn; tauto|]. apply (ascii_app (txt " ")); [exact B|]. apply ascii_app; [apply A; cbn; tauto|]. apply (ascii_app (txt " ")); [exact B|].
    apply ascii_app; [apply A; cbn; tauto|]. apply (ascii_app (txt " ")); [exact B|]. apply A; cbn; tauto.
  - apply (IH g dr dg rest); [|exact ER|exact I]. intros x IX. apply H. change (In x ((a :: r) ++ (b :: g) ++ (c :: dr) ++ (e :: dg))). rewrite !in_app_iff in IX. rewrite !in_app_iff. cbn [In]. intuition.
Qed.
Lemma written_ascii parse fix2 gen shown time user g6 q v s : is_ascii time -> is_ascii user ->
  writable parse fix2 gen shown time user g6 q v -> DatasetText.writestr fix2 gen shown time user v = Ok s -> is_ascii s.
Proof.
  intros AT AU W E. pose proof (qmax_written _ _ _ _ _ _ _ _ _ W) as Q. destruct W as [T U _ NU M K (L1 & L2 & L3)]. unfold DatasetText.writestr in E. destruct (data_lines gen _ _ _ _) as [ls|] eqn:ED; [|discriminate]. cbn [bind] in E. apply ok_inj in E. rewrite <- E.
  assert (G : forall x, In x (v_qdamp v :: v_qbroad v :: v_dscale v :: v_robs v ++ v_Gobs v ++ v_drobs v ++ v_dGobs v) -> is_ascii (gen x)) by (intros x I; apply ascii_numeral, (NU x I)).
  apply ascii_join. intros l I. apply in_app_or in I as [I|I]; [|apply in_app_or in I as [I|I]; [|apply in_app_or in I as [I|I]]].
  - unfold header_lines in I. apply in_app_or in I as [I|I]; [|apply in_app_or in I as [I|I]; [|apply in_app_or in I as [I|I]]].
    + destruct I as [<-|[<-|[<-|[]]]]; [apply ascii_app; [now apply ascii_known|exact AT]|apply ascii_app; [now apply ascii_known|exact AU]|now apply ascii_known].
    + destruct (String.eqb (v_stype v) "X"); [destruct I as [<-|[]]; now apply ascii_known|]. destruct (String.eqb (v_stype v) "N"); [destruct I as [<-|[]]; now apply ascii_known|destruct I].
    + destruct I as [<-|[]]. destruct (is_zero (v_qmax v)); [now apply ascii_known|]. apply ascii_app; [now apply ascii_known|]. apply ascii_numeral, Q.
    + destruct I as [<-|[<-|[<-|[]]]]; (apply ascii_app; [now apply ascii_known|]); apply G; cbn; auto.
  - unfold meta_lines in I. destruct (v_meta v) as [|p m] eqn:EM; [destruct I|]. destruct I as [<-|I]; [now apply ascii_known|]. apply in_map_iff in I as (x & <- & IX). destruct (M x IX) as (MN & MP).
    apply ascii_app; [now apply ascii_name|]. apply ascii_app; [now apply ascii_known|]. apply ascii_numeral, MP.
  - destruct I as [<-|[<-|[]]]; now apply ascii_known.
  - apply (data_ascii gen (v_robs v) (v_Gobs v) (v_drobs v) (v_dGobs v) ls); [|exact ED|exact I]. intros x IX. apply G. do 3 right. exact IX.
Qed.
(** the view after the name of the file has been set *)
Lemma see_set_filename st i f w : see st i = Some w -> see (set_filename st i f) i =
  Some (mkView (v_name w) (v_robs w) (v_Gobs w) (v_drobs w) (v_dGobs w) (v_stype w) (v_qmax w) (v_qdamp w) (v_qbroad w) (v_spdiameter w) (v_dscale w) (v_rmin w) (v_rmax w) (Some f) (v_meta w)).
Proof.
  unfold see, set_filename. destruct (nth_error (objs st) i) as [d|] eqn:E; [|discriminate]. cbn [option_map]. intros [= <-]. unfold set_obj. cbn [objs].
  rewrite upd_same by (apply nth_error_Some; now rewrite E). reflexivity.
Qed.
(** Data written to a file are read back from it, whatever else is on the disk. *)
Theorem C192_data_set_files :
  forall parse fix2 gen shown time user g6 q v abspath st i f d s d' st2 j,
    see st i = Some v -> is_ascii time -> is_ascii user ->
    writable parse fix2 gen shown time user g6 q v -> v_robs v <> [] ->
    v_stype v = "X"%string \/ (v_stype v = "N"%string /\ ~ names_xray time /\ ~ names_xray user) ->
    steps (ds_write fix2 gen shown time user st i f, mkPc d None) (Ret (Ok tt), s) ->
    d' f = p_disk s f -> (j < List.length (objs st2))%nat ->
    exists st' w, ds_read parse abspath d' st2 j f = (st', Ok tt) /\ see st' j = Some w /\ v_filename w = Some (abspath f) /\
      v_stype w = v_stype v /\ v_qmax w = q /\ v_qdamp w = g6 (v_qdamp v) /\ v_qbroad w = g6 (v_qbroad v) /\ v_dscale w = g6 (v_dscale v) /\ v_meta w = v_meta v /\
      v_robs w = map g6 (v_robs v) /\ v_Gobs w = map g6 (v_Gobs v) /\ v_drobs w = kept g6 (v_drobs v) /\ v_dGobs w = kept g6 (v_dGobs v) /\
      v_rmin w = nth_error (v_robs w) 0 /\ v_rmax w = nth_error (v_robs w) (List.length (v_robs w) - 1).
Proof.
  intros parse fix2 gen shown time user g6 q v abspath st i f d s d' st2 j SE AT AU W NE TY S F IL. unfold ds_write in S. rewrite SE in S.
  destruct (C186_round_trip parse fix2 gen shown time user g6 q v st2 j W NE TY IL) as (t & st' & w & A1 & A2 & A3 & A4 & A5 & A6 & A7 & A8 & A9 & B1 & B2 & B3 & B4 & B5 & B6).
  destruct (C190_text_first _ _ _ _ _ S) as (_ & _ & _ & D). destruct (D eq_refl) as (t' & ET & FD). rewrite A1 in ET. apply ok_inj in ET. subst t'.
  pose proof (see_set_filename st' j (abspath f) w A3) as SF. eexists _, _. split; [|split; [exact SF|]].
  - unfold ds_read. rewrite F, FD, decode_ascii by (now apply (written_ascii parse fix2 gen shown time user g6 q v t)). rewrite A2. reflexivity.
  - cbn [v_filename v_stype v_qmax v_qdamp v_qbroad v_dscale v_meta v_robs v_Gobs v_drobs v_dGobs v_rmin v_rmax]. auto 20.
Qed.
(** What read() does otherwise: nothing changes when the file cannot be read at all; the
    exception for a file with data in a wrong format is SrMiseFileError. *)
Theorem C192_read_failures :
  forall parse abspath d st i f,
    (d f = None -> ds_read parse abspath d st i f = (st, Err GenericException)) /\
    (forall b, d f = Some b -> ~ is_ascii b -> ds_read parse abspath d st i f = (st, Err ValueError)) /\
    (forall b st', d f = Some b -> is_ascii b -> read_text parse st i b = (st', Err DataFormatError) -> ds_read parse abspath d st i f = (st', Err FileError)) /\
    (forall e, snd (ds_read parse abspath d st i f) = Err e -> e <> DataFormatError).
Proof.
  intros parse abspath d st i f. unfold ds_read. split; [intros ->; reflexivity|]. split; [|split].
  - intros b -> NA. unfold decode. destruct (forallb _ b) eqn:E; [|reflexivity]. exfalso. apply NA. now apply ascii_known.
  - intros b st' -> A R. rewrite decode_ascii, R by exact A. reflexivity.
  - intros e. destruct (d f) as [b|]; [|cbn; congruence]. unfold decode. destruct (forallb _ b); [|cbn; congruence]. destruct (read_text parse st i b) as [st1 [u|x]]; [cbn; congruence|]. destruct x; cbn; congruence.
Qed.

(** ** C193 *)
Definition first_points (k : nat) (v : view) : view :=
  mkView (v_name v) (firstn k (v_robs v)) (firstn k (v_Gobs v)) (firstn k (v_drobs v)) (firstn k (v_dGobs v)) (v_stype v) (v_qmax v) (v_qdamp v) (v_qbroad v) (v_spdiameter v) (v_dscale v)
    (v_rmin v) (v_rmax v) (v_filename v) (v_meta v).
Lemma in_firstn {A} k (l : list A) x : In x (firstn k l) -> In x l.
Proof. intros I. rewrite <- (firstn_skipn k l). apply in_or_app. now left. Qed.
Lemma first_points_writable parse fix2 gen shown time user g6 q v k : writable parse fix2 gen shown time user g6 q v -> writable parse fix2 gen shown time user g6 q (first_points k v).
Proof.
  intros [T U Q NU M K (L1 & L2 & L3)]. constructor; cbn [first_points v_qmax v_qdamp v_qbroad v_dscale v_robs v_Gobs v_drobs v_dGobs v_meta]; auto.
  - intros x I. apply NU. destruct I as [I|[I|[I|I]]]; [now left|right; now left|right; right; now left|]. do 3 right. rewrite !in_app_iff in *. destruct I as [I|[I|[I|I]]]; apply in_firstn in I; auto.
  - rewrite !firstn_length, L1, L2, L3. auto.
Qed.
Lemma data_firstn gen k : forall r g dr dg ls, data_lines gen r g dr dg = Ok ls -> exists rest, data_lines gen (firstn k r) (firstn k g) (firstn k dr) (firstn k dg) = Ok (firstn k ls) /\ ls = firstn k ls ++ rest.
Proof.
  induction k as [|k IH]; intros r g dr dg ls E; [exists ls; now split|]. destruct r as [|a r]; [cbn in E; injection E as <-; exists []; now split|]. cbn [data_lines] in E.
  destruct g as [|b g]; [discriminate|]. destruct dr as [|c dr]; [discriminate|]. destruct dg as [|e dg]; [discriminate|]. destruct (data_lines gen r g dr dg) as [l|] eqn:ER; [|discriminate]. cbn [bind] in E. apply ok_inj in E.
  destruct (IH r g dr dg l ER) as (rest & F & G). exists rest. cbn [firstn data_lines]. rewrite F. cbn [bind]. rewrite <- E. cbn [firstn]. split; [reflexivity|]. change ((?x :: firstn k l) ++ rest) with (x :: (firstn k l ++ rest)). now rewrite <- G.
Qed.
(** The beginning of the file that ends after [k] points is the file of these points. *)
Lemma written_prefix fix2 gen shown time user v k t : DatasetText.writestr fix2 gen shown time user v = Ok t ->
  exists n, DatasetText.writestr fix2 gen shown time user (first_points k v) = Ok (firstn n t).
Proof.
  unfold DatasetText.writestr. destruct (data_lines gen (v_robs v) (v_Gobs v) (v_drobs v) (v_dGobs v)) as [ls|] eqn:E; [|discriminate]. cbn [bind]. intros ET. apply ok_inj in ET.
  destruct (data_firstn gen k _ _ _ _ _ E) as (rest & F & G). change (v_robs (first_points k v)) with (firstn k (v_robs v)). change (v_Gobs (first_points k v)) with (firstn k (v_Gobs v)). change (v_drobs (first_points k v)) with (firstn k (v_drobs v)).
  change (v_dGobs (first_points k v)) with (firstn k (v_dGobs v)). rewrite F. cbn [bind]. change (header_lines fix2 gen time user (first_points k v)) with (header_lines fix2 gen time user v). change (meta_lines shown (first_points k v)) with (meta_lines shown v).
  set (h := header_lines fix2 gen time user v ++ meta_lines shown v ++ [txt "##### start data"; txt "#L r(A) G(r) d_r d_Gr"]). exists (List.length (join_lines (h ++ firstn k ls))). f_equal.
  assert (JT : t = join_lines (h ++ firstn k ls) ++ join_lines rest).
  { rewrite <- ET, <- join_app. f_equal. unfold h. rewrite <- !app_assoc. do 3 f_equal. exact G. }
  rewrite JT, firstn_app, Nat.sub_diag, firstn_O, app_nil_r, firstn_all. unfold h. rewrite <- !app_assoc. reflexivity.
Qed.
(** "A file whose writing was interrupted is noticed when it is read": it can be read without
    complaint as a data set with only the first points, for every number of points. *)
Theorem C193_truncated_file_refuted :
  forall parse fix2 gen shown time user g6 q v abspath st i f d k st2 j,
    see st i = Some v -> is_ascii time -> is_ascii user ->
    writable parse fix2 gen shown time user g6 q v -> (0 < k < List.length (v_robs v))%nat ->
    v_stype v = "X"%string \/ (v_stype v = "N"%string /\ ~ names_xray time /\ ~ names_xray user) ->
    (j < List.length (objs st2))%nat ->
    exists p s, steps (ds_write fix2 gen shown time user st i f, mkPc d None) (p, s) /\ p <> Ret (Ok tt) /\
      exists st' w, ds_read parse abspath (p_disk s) st2 j f = (st', Ok tt) /\ see st' j = Some w /\ v_robs w = map g6 (firstn k (v_robs v)) /\ v_Gobs w = map g6 (firstn k (v_Gobs v)).
Proof.
  intros parse fix2 gen shown time user g6 q v abspath st i f d k st2 j SE AT AU W K TY IL. unfold ds_write. rewrite SE.
  assert (NE : v_robs v <> []) by (destruct (v_robs v); [cbn in K; lia|discriminate]).
  destruct (C186_round_trip parse fix2 gen shown time user g6 q v st2 j W NE TY IL) as (t & _ & _ & A1 & _).
  destruct (written_prefix fix2 gen shown time user v k t A1) as (n & P).
  destruct (C191_interrupted_write_refuted t f d n) as (p & s & S & NP & FD). exists p, s. rewrite A1. split; [exact S|]. split; [exact NP|].
  assert (NE' : v_robs (first_points k v) <> []) by (destruct (v_robs v) eqn:E; [contradiction|]; cbn [first_points v_robs]; rewrite E; destruct k; [lia|discriminate]).
  pose proof (first_points_writable _ _ _ _ _ _ _ _ _ k W) as W'.
  destruct (C186_round_trip parse fix2 gen shown time user g6 q (first_points k v) st2 j W' NE' TY IL) as (t' & st' & w & B1 & B2 & B3 & _ & _ & _ & _ & _ & _ & B4 & B5 & _).
  rewrite P in B1. apply ok_inj in B1. subst t'. pose proof (see_set_filename st' j (abspath f) w B3) as SF. eexists _, _. split; [|split; [exact SF|split; [exact B4|exact B5]]].
  unfold ds_read. rewrite FD, decode_ascii by (now apply (written_ascii parse fix2 gen shown time user g6 q (first_points k v) (firstn n t))). rewrite B2. reflexivity.
Qed.

(** ** C194 *)
(** "A method that fails to make its text leaves the file alone": traces and stability results
    open their file first, so the old contents are gone. *)
Theorem C194_open_first_refuted :
  forall e f d, exists s, steps (open_first (Err e) f, mkPc d None) (Ret (Err e), s) /\ p_disk s f = Some [].
Proof.
  intros e f d. exists (mkPc (put d f []) (Some (f, []))). split; [|unfold put; cbn; now rewrite String.eqb_refl]. eapply steps_next; [apply s_call, a_open|]. apply steps_here.
Qed.
Theorem C194_save_refuted :
  forall e dump f d,
    (exists s, steps (save (Err e) dump f, mkPc d None) (Ret (Err e), s) /\ p_open s = None /\ p_disk s f = Some []) /\
    (forall t, snd (dump t) = Err e -> exists s, steps (save (Ok t) dump f, mkPc d None) (Ret (Err e), s) /\ p_open s = None /\ p_disk s f = Some (fst (dump t))).
Proof.
  intros e dump f d. split.
  - eexists. split; [|split].
    + eapply steps_next; [apply s_call, a_open|]. cbv beta iota. eapply steps_next; [apply s_call, a_close; unfold put; now rewrite String.eqb_refl|]. apply steps_here.
    + reflexivity.
    + unfold put. cbn. now rewrite String.eqb_refl.
  - intros t E. eexists. split; [|split].
    + eapply steps_next; [apply s_call, a_open|]. cbv beta iota. eapply steps_next; [apply s_call, a_write|]. cbv beta iota. rewrite E. eapply steps_next; [apply s_call, a_close; unfold put; now rewrite String.eqb_refl|]. apply steps_here.
    + reflexivity.
    + unfold put. cbn. now rewrite String.eqb_refl.
Qed.
(** What they have in common with the others: no other file is touched, and success means
    that the file is complete. *)
Definition in_save (d : disk) (f : string) (text : result chars) (dump : chars -> chars * result unit) (x : prog * pc) : Prop :=
  (x = (save text dump f, mkPc d None)) \/ (exists e, x = (Ret (Err e), mkPc d None)) \/
  (exists t, text = Ok t /\ fst x = Call (CWrite (fst (dump t))) (fun r => finally_close (match r with Err e => Err e | Ok _ => snd (dump t) end)) /\ holds d f [] (snd x) /\ p_open (snd x) <> None) \/
  (exists r w, fst x = finally_close r /\ holds d f w (snd x) /\ p_open (snd x) <> None /\ (r = Ok tt -> exists t, text = Ok t /\ w = fst (dump t) /\ snd (dump t) = Ok tt)) \/
  (exists r w, fst x = Ret r /\ holds d f w (snd x) /\ p_open (snd x) = None /\ (r = Ok tt -> exists t, text = Ok t /\ w = fst (dump t) /\ snd (dump t) = Ok tt)).
Lemma in_save_step d f text dump x y : in_save d f text dump x -> step x y -> in_save d f text dump y.
Proof.
  intros [ -> |[(e & ->)|[H|[H|H]]]] S.
  - inversion S as [c k s0 s1 r A|]; subst. assert (HN : holds d f [] (mkPc (put d f []) (Some (f, [])))) by (exists []; split; [apply only_new|now split]).
    inversion A; subst; [|right; left; eauto]. destruct text as [t|e].
    + right; right; left. exists t. split; [reflexivity|]. split; [reflexivity|]. split; [exact HN|discriminate].
    + right; right; right; left. exists (Err e), []. split; [reflexivity|]. split; [exact HN|]. split; [discriminate|discriminate].
  - inversion S.
  - destruct H as (t & ET & E & H & NO). destruct x as (p, s), y as (p', s'). cbn [fst snd] in *. subst p. inversion S as [c k s0 s1 r A|p0 d0 g b n c E]; subst.
    + destruct (holds_write _ _ _ _ _ _ _ H NO A) as (NO' & [(-> & H')|(e & n & -> & H')]).
      * right; right; right; left. exists (snd (dump t)), (fst (dump t)). split; [reflexivity|]. split; [exact H'|]. split; [exact NO'|]. intros E. eauto.
      * right; right; right; left. exists (Err e), ([] ++ firstn n (fst (dump t))). split; [reflexivity|]. split; [exact H'|]. split; [exact NO'|discriminate].
    + right; right; left. exists t. destruct (holds_flush _ _ _ _ _ _ _ H (s_flush (Ret (Ok tt)) d0 g b n c E)) as [(? & ? & ?)|(_ & H')]; [discriminate|]. split; [reflexivity|]. split; [reflexivity|]. split; [exact H'|discriminate].
  - destruct H as (r & w & E & H & NO & Q). destruct x as (p, s), y as (p', s'). cbn [fst snd] in *. subst p. inversion S as [c k s0 s1 r1 A|p0 d0 g b n c E]; subst.
    + destruct (holds_close _ _ _ _ _ _ H A) as (NO' & [(-> & H')|(e & n & -> & H')]).
      * right; right; right; right. exists r, w. auto.
      * right; right; right; right. exists (Err e), (firstn n w). split; [reflexivity|]. split; [exact H'|]. split; [exact NO'|discriminate].
    + right; right; right; left. exists r, w. destruct (holds_flush _ _ _ _ _ _ _ H (s_flush (Ret (Ok tt)) d0 g b n c E)) as [(? & ? & ?)|(_ & H')]; [discriminate|]. split; [reflexivity|]. split; [exact H'|]. split; [discriminate|exact Q].
  - destruct H as (r & w & E & H & NO & Q). destruct x as (p, s), y as (p', s'). cbn [fst snd] in *. subst p. inversion S; subst; cbn in NO; discriminate.
Qed.
Theorem C190_open_first_files :
  forall text f d p s, steps (open_first text f, mkPc d None) (p, s) ->
    (forall g, g <> f -> p_disk s g = d g) /\ (p = Ret (Ok tt) -> exists t, text = Ok t /\ p_disk s f = Some t).
Proof.
  intros [t|e] f d p s S.
  - destruct (C190_text_first (Ok t) f d p s S) as (O & _ & _ & D). auto.
  - assert (I : (p, s) = (open_first (Err e) f, mkPc d None) \/ (exists e', (p, s) = (Ret (Err e'), mkPc d None)) \/ (p = Ret (Err e) /\ holds d f [] s)).
    { apply (steps_ind_inv (fun x => x = (open_first (Err e) f, mkPc d None) \/ (exists e', x = (Ret (Err e'), mkPc d None)) \/ (fst x = Ret (Err e) /\ holds d f [] (snd x))) _ _ (or_introl eq_refl)) in S; [exact S|].
      intros x y [ -> |[(e' & ->)|(E & H)]] ST; [|inversion ST|].
      - inversion ST as [c k s0 s1 r A|]; subst. inversion A; subst; [|right; left; eauto]. right; right. split; [reflexivity|]. exists []. split; [apply only_new|now split].
      - destruct x as (p0, s0), y as (p1, s1). cbn [fst snd] in *. subst p0. destruct (holds_flush _ _ _ _ _ _ _ H ST) as [(? & ? & ?)|( -> & H')]; [discriminate|]. right; right. auto. }
    destruct I as [E|[(e' & E)|(E & H)]]; [injection E as -> ->; split; [reflexivity|discriminate]|injection E as -> ->; split; [reflexivity|discriminate]|]. subst p. destruct (holds_file _ _ _ _ H) as (O & _). split; [exact O|discriminate].
Qed.
Theorem C190_save_files :
  forall text dump f d p s, steps (save text dump f, mkPc d None) (p, s) ->
    (forall g, g <> f -> p_disk s g = d g) /\ (p = Ret (Ok tt) -> exists t, text = Ok t /\ snd (dump t) = Ok tt /\ p_disk s f = Some (fst (dump t))) /\
    (forall r, p = Ret r -> p_open s = None).
Proof.
  intros text dump f d p s S.
  assert (I : in_save d f text dump (p, s)) by (apply (steps_ind_inv (in_save d f text dump) _ _ (or_introl eq_refl)); [apply in_save_step|exact S]).
  destruct I as [E|[(e & E)|[(t & ET & E & H & NO)|[(r & w & E & H & NO & Q)|(r & w & E & H & NO & Q)]]]]; cbn [fst snd] in *.
  - injection E as -> ->. split; [reflexivity|]. split; [discriminate|reflexivity].
  - injection E as -> ->. split; [reflexivity|]. split; [discriminate|reflexivity].
  - subst p. destruct (holds_file _ _ _ _ H) as (O & _). split; [exact O|]. split; discriminate.
  - subst p. destruct (holds_file _ _ _ _ H) as (O & _). split; [exact O|]. split; discriminate.
  - subst p. destruct (holds_file _ _ _ _ H) as (O & m & _ & M). split; [exact O|]. split; [|auto]. intros [= ->]. destruct (Q eq_refl) as (t & -> & -> & D). exists t. auto.
Qed.

(** ** C195: the files of one traced operation *)
Lemma show_int_inj a b : show_int a = show_int b -> a = b.
Proof. intros E. pose proof (eval_show a) as A. rewrite E, eval_show in A. now injection A. Qed.
Lemma append_inj a s t : (a ++ s)%string = (a ++ t)%string -> s = t.
Proof. induction a as [|c a IH]; cbn; [auto|]. intros E. injection E as E. auto. Qed.
Lemma trace_file_inj base a b : trace_file base a = trace_file base b -> a = b.
Proof. unfold trace_file. intros E. apply append_inj, (append_inj "_") in E. now apply show_int_inj. Qed.
(** Inside an operation: the function that started it has not been left ([call] functions are
    active). *)
Fixpoint inside (call : Z) (l : list tevent) : Prop :=
  (0 < call)%Z /\ match l with
  | [] => True
  | TPushC :: r => inside (call + 1) r
  | TPopC :: r => inside (call - 1) r
  | _ :: r => inside call r
  end.
(** the texts of the traces that pass the filter, numbered from [n], in the order of the calls *)
Fixpoint texts (rec n : Z) (l : list tevent) : list (result chars) :=
  match l with
  | [] => []
  | TPushR :: r => texts (rec + 1) n r
  | TPopR :: r => texts (rec - 1) n r
  | TEmit true t :: r => t rec n :: texts rec (n + 1) r
  | _ :: r => texts rec n r
  end.
Lemma tevents_inside base : forall l s d, inside (t_call s) l -> (forall x, In x (texts (t_recursion s) (t_counter s) l) -> exists t, x = Ok t) ->
  exists s' d', tevents base (s, d) l = (s', d', Ok tt) /\ t_counter s' = (t_counter s + Z.of_nat (List.length (texts (t_recursion s) (t_counter s) l)))%Z /\
    (forall i x, nth_error (texts (t_recursion s) (t_counter s) l) i = Some (Ok x) -> d' (trace_file base (t_counter s + Z.of_nat i)) = Some x) /\
    (forall f, (forall i, (i < List.length (texts (t_recursion s) (t_counter s) l))%nat -> f <> trace_file base (t_counter s + Z.of_nat i)) -> d' f = d f).
Proof.
  induction l as [|e l IH]; intros s d IN HT.
  - exists s, d. split; [reflexivity|]. split; [cbn; lia|]. split; [intros [|i] x E; discriminate E|auto].
  - cbn [inside] in IN. destruct IN as (C & IN). cbn [tevents].
    assert (K : forall s1, t_recursion s1 = t_recursion s -> t_counter s1 = t_counter s -> inside (t_call s1) l -> texts (t_recursion s) (t_counter s) (e :: l) = texts (t_recursion s) (t_counter s) l ->
      exists s' d', tevents base (s1, d) l = (s', d', Ok tt) /\ t_counter s' = (t_counter s + Z.of_nat (List.length (texts (t_recursion s) (t_counter s) (e :: l))))%Z /\
      (forall i x, nth_error (texts (t_recursion s) (t_counter s) (e :: l)) i = Some (Ok x) -> d' (trace_file base (t_counter s + Z.of_nat i)) = Some x) /\
      (forall f, (forall i, (i < List.length (texts (t_recursion s) (t_counter s) (e :: l)))%nat -> f <> trace_file base (t_counter s + Z.of_nat i)) -> d' f = d f)).
    { intros s1 E1 E2 IN1 ET. rewrite ET in HT |- *. rewrite <- E1, <- E2 in HT |- *. now apply IH. }
    destruct e as [| | | |[] t]; cbn [tstep].
    + apply K; unfold pushc; destruct (Z.eqb_spec (t_call s) 0); try lia; try reflexivity. exact IN.
    + apply K; try reflexivity. exact IN.
    + cbn [texts] in HT |- *. exact (IH (pushr s) d IN HT).
    + cbn [texts] in HT |- *. exact (IH (popr s) d IN HT).
    + cbn [texts] in HT |- *. destruct (HT _ (or_introl eq_refl)) as (x0 & E0). rewrite E0. cbv beta iota zeta.
      destruct (IH (mkTr (t_call s) (t_counter s + 1) (t_recursion s) (t_trace s)) (put d (trace_file base (t_counter s)) x0) IN (fun x I => HT x (or_intror I))) as (s' & d' & R & CN & FI & FO).
      cbn [t_counter t_recursion] in *. exists s', d'. split; [exact R|]. split; [cbn [List.length]; lia|]. split.
      * intros [|i] x E; cbn [nth_error] in E.
        -- injection E as E. change (Z.of_nat 0) with 0%Z. rewrite Z.add_0_r, FO; [unfold put; rewrite String.eqb_refl; congruence|]. intros i _ EI. apply trace_file_inj in EI. lia.
        -- rewrite <- (FI i x E). f_equal. f_equal. lia.
      * intros f NF. rewrite FO; [unfold put; destruct (String.eqb_spec f (trace_file base (t_counter s))) as [EF|_]; [|reflexivity]|].
        -- exfalso. apply (NF 0%nat); [cbn; lia|]. rewrite EF. f_equal. lia.
        -- intros i LI EI. apply (NF (S i)); [cbn; lia|]. rewrite EI. f_equal. lia.
    + apply K; try reflexivity. exact IN.
Qed.
(** While no text fails, an operation leaves one complete file per trace that passes the
    filter, numbered from 0 in the order of the calls, and touches no other file. *)
Theorem C195_one_operation :
  forall base s d l,
    t_call s = 0%Z -> inside 1 l -> (forall x, In x (texts 0 0 l) -> exists t, x = Ok t) ->
    exists s' d', tevents base (s, d) (TPushC :: l) = (s', d', Ok tt) /\
      (forall i x, nth_error (texts 0 0 l) i = Some (Ok x) -> d' (trace_file base (Z.of_nat i)) = Some x) /\
      (forall f, (forall i, (i < List.length (texts 0 0 l))%nat -> f <> trace_file base (Z.of_nat i)) -> d' f = d f).
Proof.
  intros base s d l C IN HT. destruct (tevents_inside base l (pushc s) d) as (s' & d' & R & _ & FI & FO).
  - unfold pushc. rewrite C. exact IN.
  - unfold pushc. rewrite C. exact HT.
  - exists s', d'. unfold pushc in FI, FO. rewrite C in FI, FO. split; [exact R|]. split; [exact FI|exact FO].
Qed.

(** ** C196 *)
(** "The traces of an operation stay on the disk": the next operation starts again at 0 and
    replaces its files. *)
Theorem C196_overwritten_refuted :
  forall base s d t1 t2, t_call s = 0%Z ->
    exists s' d', tevents base (s, d) [TPushC; TEmit true (fun _ _ => Ok t1); TPopC; TPushC; TEmit true (fun _ _ => Ok t2); TPopC] = (s', d', Ok tt) /\
      d' (trace_file base 0) = Some t2.
Proof.
  intros base [c n r tr] d t1 t2 C. cbn [t_call] in C. subst c. eexists _, _. split; [reflexivity|]. cbn -[trace_file put]. unfold put. now rewrite String.eqb_refl.
Qed.

(** ** C197: tables of information criteria *)
(** The tables of the object do not depend on what happens to the file, which is complete if
    the method returns. *)
Theorem C197_tables_before_file :
  forall argsort em dump o gs f,
    match makeaics argsort em o gs with
    | Err e => makeaics_file argsort em dump o gs f = (o, Ret (Err e))
    | Ok o' => fst (makeaics_file argsort em dump o gs f) = o' /\
        forall d p s, steps (snd (makeaics_file argsort em dump o gs f), mkPc d None) (p, s) ->
          (forall g, g <> f -> p_disk s g = d g) /\ (p = Ret (Ok tt) -> p_disk s f = Some (dump (aics o')))
    end.
Proof.
  intros argsort em dump o gs f. unfold makeaics_file. destruct (makeaics argsort em o gs) as [o'|e]; [|reflexivity]. split; [reflexivity|]. intros d p s S. cbn [snd] in S.
  destruct (C190_text_first (Ok (dump (aics o'))) f d p s S) as (O & _ & _ & D). split; [exact O|]. intros E. destruct (D E) as (t & [= <-] & F). exact F.
Qed.
(** "Saved tables can be loaded": loading always raises, and a readable file replaces the
    object's own table before that. *)
Theorem C197_load_refuted :
  forall undump d o f,
    (d f = None -> loadaics undump d o f = (o, Err GenericException)) /\
    (forall b e, d f = Some b -> undump b = Err e -> loadaics undump d o f = (o, Err e)) /\
    (forall b t, d f = Some b -> undump b = Ok t ->
       snd (loadaics undump d o f) = Err ValueError /\ aics (fst (loadaics undump d o f)) = t /\ aicprobs (fst (loadaics undump d o f)) = aicprobs o /\
       results (fst (loadaics undump d o f)) = results o /\ classes (fst (loadaics undump d o f)) = classes o).
Proof.
  intros undump d o f. unfold loadaics. split; [now intros ->|]. split; [now intros b e -> ->|]. intros b t -> ->. repeat split; reflexivity.
Qed.

(** ** Non-vacuity *)
(** a write that is interrupted after three characters, one whose text fails, a trace of a
    cluster without a baseline (C126), an operation with two traces *)
Example C190_nonvacuous : exists p s,
  steps (text_first (Ok (txt "abcdef")) "f", mkPc (fun g => if String.eqb g "f" then Some (txt "old") else None) None) (p, s) /\ p_disk s "f"%string = Some (txt "abc").
Proof. destruct (C191_interrupted_write_refuted (txt "abcdef") "f" (fun g => if String.eqb g "f" then Some (txt "old") else None) 3) as (p & s & S & _ & F). eauto. Qed.
Example C192_nonvacuous : is_ascii (txt "Wed Nov 18") /\ is_ascii (txt "alice") /\ writable x_parse x_gen x_gen x_gen (txt "Wed Nov 18") (txt "alice") (fun x => x) (Fin 0) x_view /\
  v_robs x_view <> [] /\ (0 < 1 < List.length (v_robs x_view))%nat /\ exists st i, see st i = Some x_view.
Proof.
  split; [now apply ascii_known|]. split; [now apply ascii_known|]. split; [apply C186_nonvacuous|]. split; [discriminate|]. split; [cbn; lia|].
  exists (mkState [v_robs x_view; v_Gobs x_view; v_drobs x_view; v_dGobs x_view] [v_meta x_view]
    [mkDs "a" 0 1 2 3 "N" (v_qmax x_view) (v_qdamp x_view) (v_qbroad x_view) (v_spdiameter x_view) (v_dscale x_view) None None None 0]), 0%nat. reflexivity.
Qed.
Example C194_nonvacuous : forall {V F : Type} (repr : V -> string) vnone vint vstr fclass fmodule fbase fmeta ftext feq safelist show_ints show_nat (m : @Serial.mc V F),
  Serial.mc_base m = None -> Serial.mc_funcs m <> None ->
  Serial.mc_writestr repr vnone vint vstr fclass fmodule fbase fmeta ftext feq safelist show_ints show_nat None None m = Err AttributeError.
Proof. intros V F repr vnone vint vstr fclass fmodule fbase fmeta ftext feq safelist show_ints show_nat m H N. unfold Serial.mc_writestr, Serial.pf_default. rewrite H. destruct (Serial.mc_funcs m); [reflexivity|contradiction]. Qed.
Example C195_nonvacuous :
  let l := [TPushR; TEmit true (fun r c => Ok (txt (show_int r ++ show_int c))); TEmit false (fun _ _ => Err TypeError); TPopR; TPushC; TEmit true (fun r c => Ok (txt (show_int r ++ show_int c))); TPopC] in
  inside 1 l /\ texts 0 0 l = [Ok (txt "10"); Ok (txt "01")] /\ trace_file "t" 0 = "t_0"%string /\ trace_file "t" 12 = "t_12"%string.
Proof. cbn [inside]. split; [lia|]. repeat split. Qed.
Print Assumptions C190_text_first.
Print Assumptions C190_can_succeed.
Print Assumptions C190_open_first_files.
Print Assumptions C190_save_files.
Print Assumptions C191_interrupted_write_refuted.
Print Assumptions C192_data_set_files.
Print Assumptions C192_read_failures.
Print Assumptions C193_truncated_file_refuted.
Print Assumptions C194_open_first_refuted.
Print Assumptions C194_save_refuted.
Print Assumptions C195_one_operation.
Print Assumptions C196_overwritten_refuted.
Print Assumptions C197_tables_before_file.
Print Assumptions C197_load_refuted.

(** Properties of the tracer: counters (C63), text form (C64), snapshots (C68). *)
From Coq Require Import String Ascii DecimalString DecimalZ Permutation Sorted.
From Verif Require Import Prelude ModelCluster ModelClusterProofs ModelClusterProps Tracer.
Open Scope Z_scope.

(** ** C63 *)
Section Counters.
Context {T : Type}.
Notation event := (event T).
(** opened minus closed calls, opened minus closed recursion levels, traces made *)
Definition net_c (l : list event) : Z := fold_right (fun e n => match e with PushC => n + 1 | PopC => n - 1 | _ => n end) 0 l.
Definition net_r (l : list event) : Z := fold_right (fun e n => match e with PushR => n + 1 | PopR => n - 1 | _ => n end) 0 l.
Definition passing (l : list event) : Z := fold_right (fun e n => match e with Emit true _ => n + 1 | _ => n end) 0 l.
(** no call is entered at the outermost level *)
Definition inside (call : Z) (l : list event) : Prop := forall p q, l = p ++ PushC :: q -> call + net_c p <> 0.
(** The traces made by a word: each gets the recursion level at that point and the next
    counter. *)
Fixpoint made (rec cnt : Z) (l : list event) : list T :=
  match l with
  | [] => []
  | PushR :: l => made (rec + 1) cnt l
  | PopR :: l => made (rec - 1) cnt l
  | Emit true m :: l => m rec cnt :: made rec (cnt + 1) l
  | _ :: l => made rec cnt l
  end.
Lemma inside_tail call e l : inside call (e :: l) -> inside (call + net_c [e]) l.
Proof.
  intros H p q E. specialize (H (e :: p) q). rewrite E in H. specialize (H eq_refl). cbn [net_c fold_right] in *. fold (net_c p) in *.
  destruct e; lia.
Qed.

Theorem C63_inside :
  forall (l : list event) (s : tracer T),
    inside (t_call s) l ->
    events s l = mkTr (t_call s + net_c l) (t_counter s + passing l) (t_recursion s + net_r l)
                      (t_trace s ++ made (t_recursion s) (t_counter s) l).
Proof.
  induction l as [|e l IH]; intros s I.
  - cbn. rewrite app_nil_r. destruct s as [a b c d]; cbn [t_call t_counter t_recursion t_trace]. f_equal; lia.
  - cbn [events fold_left]. fold (events (event_step s e) l).
    pose proof (inside_tail _ _ _ I) as I'.
    destruct e as [| | | |[] m]; cbn [event_step net_c net_r passing fold_right made]; fold (net_c l) (net_r l) (passing l); cbn [net_c fold_right] in I'.
    + unfold pushc. specialize (I [] l eq_refl). cbn [net_c fold_right] in I. destruct (Z.eqb_spec (t_call s) 0); [lia|].
      rewrite IH; cbn [t_call t_counter t_recursion t_trace]; [f_equal; lia|]. replace (t_call s + 1) with (t_call s + (0 + 1)) by lia. exact I'.
    + rewrite IH; cbn [popc t_call t_counter t_recursion t_trace]; [f_equal; lia|]. replace (t_call s - 1) with (t_call s + (0 - 1)) by lia. exact I'.
    + rewrite IH; cbn [pushr t_call t_counter t_recursion t_trace]; [f_equal; lia|]. rewrite Z.add_0_r in I'. exact I'.
    + rewrite IH; cbn [popr t_call t_counter t_recursion t_trace]; [f_equal; lia|]. rewrite Z.add_0_r in I'. exact I'.
    + unfold emit. rewrite IH; cbn [t_call t_counter t_recursion t_trace]; [rewrite <- app_assoc; cbn [app]; f_equal; lia|]. rewrite Z.add_0_r in I'. exact I'.
    + unfold emit. rewrite IH; [f_equal; lia|]. rewrite Z.add_0_r in I'. exact I'.
Qed.

(** Balanced work inside a call restores the levels; the counter only counts traces. *)
Theorem C63_balanced :
  forall (l : list event) (s : tracer T),
    0 < t_call s -> (forall p q, l = p ++ q -> 0 <= net_c p) -> net_c l = 0 -> net_r l = 0 ->
    t_call (events s l) = t_call s /\ t_recursion (events s l) = t_recursion s /\ t_counter (events s l) = t_counter s + passing l.
Proof.
  intros l s H PF C R. rewrite C63_inside; [cbn [t_call t_counter t_recursion]; lia|].
  intros p q E. specialize (PF p (PushC :: q) E). lia.
Qed.
(** An outermost call, from whatever the counters were: afterwards the levels are 0, the
    counter is the number of traces made in it, and they are numbered 0, 1, 2, ... *)
Theorem C63_outermost :
  forall (l : list event) (s : tracer T),
    t_call s = 0 -> inside 1 l -> net_c l = -1 -> net_r l = 0 ->
    events s (PushC :: l) = mkTr 0 (passing l) 0 (t_trace s ++ made 0 0 l).
Proof.
  intros l s C I NC NR. cbn [events fold_left event_step]. fold (events (pushc s) l). unfold pushc. rewrite C. cbn [Z.eqb reset_trace t_call t_counter t_recursion t_trace].
  rewrite C63_inside; cbn [t_call t_counter t_recursion t_trace]; [f_equal; lia|exact I].
Qed.
End Counters.
(** "Numbered consecutively": with make recording its arguments. *)
Theorem C63_consecutive :
  forall (l : list (event (Z * Z))) rec cnt k t,
    (forall e, In e l -> forall p m, e = Emit p m -> m = fun r c => (r, c)) ->
    nth_error (made rec cnt l) k = Some t -> snd t = cnt + Z.of_nat k.
Proof.
  induction l as [|e l IH]; intros rec cnt k t F E; [destruct k; discriminate|].
  assert (F' : forall e0, In e0 l -> forall p m, e0 = Emit p m -> m = fun r c => (r, c)) by (intros; eapply F; [right; eassumption|eassumption]).
  destruct e as [| | | |[] m]; cbn [made] in E; try (eapply IH; eassumption).
  assert (m = fun r c => (r, c)) as -> by (eapply F; [left; reflexivity|reflexivity]).
  destruct k as [|k]; cbn [nth_error] in E.
  - injection E as <-. cbn. lia.
  - rewrite (IH _ _ _ _ F' E). lia.
Qed.
(** The recursion level and the counter it was made with *)
Theorem C63_levels :
  forall (l l' : list (event (Z * Z))) p rec cnt,
    made rec cnt (l ++ Emit true p :: l') = (made rec cnt l ++ p (rec + net_r l)%Z (cnt + passing l)%Z :: made (rec + net_r l) (cnt + passing l + 1) l')%list.
Proof.
  induction l as [|e l IH]; intros l' p rec cnt; [cbn [app made net_r passing fold_right]; now rewrite !Z.add_0_r|].
  destruct e as [| | | |[] m]; cbn [app made net_r passing fold_right]; fold (net_r l) (passing l); rewrite ?IH; repeat (f_equal; try lia).
Qed.

(** Memory is never emptied: an outermost call keeps the traces of the previous ones
    (reset_trace clears an attribute nobody reads). *)
Theorem C91_memory_refuted : forall {T} (s : tracer T), t_call s = 0 -> t_trace (pushc s) = t_trace s /\ t_counter (pushc s) = 0.
Proof. intros T s C. unfold pushc. rewrite C. split; reflexivity. Qed.
(** An operation that ends in an exception never pops; the next outermost call does not
    reset, so its levels and counters do not start at 0. *)
Theorem C91_after_exception_refuted :
  forall {T} (l l' : list (event T)) (s : tracer T),
    t_call s = 0 -> inside 1 l -> 0 < 1 + net_c l ->      (* aborted: calls still open *)
    inside (1 + net_c l) (PushC :: l') -> net_c l' = -1 -> net_r l' = 0 ->
    let s' := events (events s (PushC :: l)) (PushC :: l') in
    t_call s' = 1 + net_c l /\ t_recursion s' = net_r l /\ t_counter s' = passing l + passing l'.
Proof.
  intros T l l' s C I NC I' NC' NR'.
  assert (E : events s (PushC :: l) = mkTr (1 + net_c l) (passing l) (net_r l) (t_trace s ++ made 0 0 l)).
  { cbn [events fold_left event_step]. fold (events (pushc s) l). unfold pushc. rewrite C. cbn [Z.eqb reset_trace t_call t_counter t_recursion t_trace].
    rewrite C63_inside; [reflexivity|exact I]. }
  cbv zeta. rewrite E, C63_inside by exact I'. cbn [t_call t_recursion t_counter net_c net_r passing fold_right]. fold (net_c l') (net_r l') (passing l'). lia.
Qed.

(** ** C64 *)
Section Text.
Open Scope string_scope.
Context {MC CL T : Type}.
Variables (mc_lines : MC -> list string) (mc_factory : list string -> result MC)
          (show_clusters : CL -> string) (eval_clusters : string -> result CL).

Lemma after_prefix_app p s : after_prefix p (p ++ s) = Some s.
Proof. induction p as [|a p IH]; [reflexivity|]. cbn. rewrite Ascii.eqb_refl. exact IH. Qed.
Lemma eval_show z : eval_int (show_int z) = Ok z.
Proof.
  unfold eval_int, show_int. rewrite NilZero.isi; [now rewrite DecimalZ.of_to| |].
  - destruct z as [|p|p]; cbn; try discriminate. intros [= E].
    pose proof (DecimalPos.Unsigned.to_uint_nonnil p). congruence.
  - destruct z as [|p|p]; cbn; try discriminate. intros [= E].
    pose proof (DecimalPos.Unsigned.to_uint_nonnil p). congruence.
Qed.

(** Everything but the two counters comes back as written, whatever the tracer's state,
    provided the cluster text does not start with a comment line and the two other
    round trips hold; the two counters are the ones of the tracer that reads. *)
Theorem C109_readstr_partial :
  forall (s : tracer T) (t : ttrace),
    mc_factory (mc_lines (x_mc t)) = Ok (x_mc t) ->
    eval_clusters (show_clusters (x_clusters t)) = Ok (x_clusters t) ->
    skip_comments (mc_lines (x_mc t)) = mc_lines (x_mc t) ->
    readstr mc_factory eval_clusters s (writestr mc_lines show_clusters t) =
      Ok (mkT (x_mc t) (x_clusters t) (t_recursion s) (t_counter s)).
Proof.
  intros s t M C K. unfold readstr, writestr. cbn [app].
  set (lc := append "counter=" _). set (lr := append "recursion=" _). set (ll := append "clusters=" _).
  assert (S1 : split_section "ModelCluster" ("### Trace" :: lc :: lr :: ll :: "### ModelCluster" :: mc_lines (x_mc t)) =
               Some (["### Trace"; lc; lr; ll], mc_lines (x_mc t))).
  { reflexivity. }
  rewrite S1, K, M. cbn [bind].
  assert (F1 : field "clusters" ["### Trace"; lc; lr; ll] = Some (show_clusters (x_clusters t))) by reflexivity.
  assert (F2 : field "recursion" ["### Trace"; lc; lr; ll] = Some (show_int (x_recursion t))) by reflexivity.
  assert (F3 : field "counter" ["### Trace"; lc; lr; ll] = Some (show_int (x_counter t))) by reflexivity.
  rewrite F1, C. cbn [bind]. rewrite F2, eval_show. cbn [bind]. rewrite F3, eval_show. reflexivity.
Qed.
(** So the counters of the written trace are not returned. *)
Theorem C64_readstr_refuted :
  forall (s : tracer T) (t : ttrace),
    mc_factory (mc_lines (x_mc t)) = Ok (x_mc t) ->
    eval_clusters (show_clusters (x_clusters t)) = Ok (x_clusters t) ->
    skip_comments (mc_lines (x_mc t)) = mc_lines (x_mc t) ->
    (x_recursion t, x_counter t) <> (t_recursion s, t_counter s) ->
    readstr mc_factory eval_clusters s (writestr mc_lines show_clusters t) <> Ok t.
Proof.
  intros s t M C K N. rewrite C109_readstr_partial by assumption. intros E. apply N.
  assert (X : forall a b : @ttrace MC CL, Ok a = Ok b -> a = b) by (intros a b [= ->]; reflexivity).
  apply X in E. rewrite <- E. reflexivity.
Qed.
(** Reading any trace file fails. *)
Theorem C64_read_refuted :
  forall (s : tracer T) content, read mc_factory eval_clusters s content = Err TypeError.
Proof. reflexivity. Qed.
End Text.

(** ** C68 *)
Section Snapshot.
Context {P B Q : Type}.
Variable w : list P -> world nat B Q.
Notation cluster := (cluster nat B).
Definition contents (h : list P) (m : list nat) : list (option P) := map (nth_error h) m.

Lemma nth_ext_list {A} (l l' : list A) : (forall k, nth_error l k = nth_error l' k) -> l = l'.
Proof.
  revert l'. induction l as [|a l IH]; intros [|b l'] H; auto; try (specialize (H 0%nat); discriminate).
  f_equal; [specialize (H 0%nat); cbn in H; congruence|]. apply IH. intros k. exact (H (S k)).
Qed.
Lemma copy_contents h m : (forall a, In a m -> (a < length h)%nat) ->
  let '(h1, m1) := copy_peaks h m in
  contents h1 m1 = contents h m /\ (exists t, h1 = h ++ t /\ length t = length m) /\ (forall a, In a m1 -> (length h <= a < length h1)%nat).
Proof.
  intros V. unfold copy_peaks. set (f := fun a => match nth_error h a with Some p => [p] | None => [] end).
  assert (L : length (flat_map f m) = length m /\ forall k, nth_error (flat_map f m) k = match nth_error m k with Some a => nth_error h a | None => None end).
  { induction m as [|a m IH]; [split; [reflexivity|intros [|k]; reflexivity]|].
    destruct IH as [L N]; [intros; apply V; now right|]. destruct (nth_error h a) as [p|] eqn:E; [|apply nth_error_None in E; specialize (V a (or_introl eq_refl)); lia].
    cbn [flat_map]. assert (f a = [p]) as -> by (unfold f; now rewrite E). cbn [app length]. split; [lia|].
    intros [|k]; cbn [nth_error]; [now rewrite E|apply N]. }
  destruct L as [L N]. split; [|split; [exists (flat_map f m); auto|]].
  - unfold contents. apply nth_ext_list. intros k. rewrite !nth_error_map.
    destruct (nth_error m k) as [a|] eqn:E.
    + assert (KL : (k < length m)%nat) by (apply nth_error_Some; congruence).
      assert (nth_error (seq (length h) (length m)) k = Some (length h + k)%nat) as ->.
      { rewrite (nth_error_nth' _ 0%nat) by (rewrite seq_length; exact KL). now rewrite seq_nth. }
      cbn [option_map]. f_equal. rewrite nth_error_app2 by lia. replace (length h + k - length h)%nat with k by lia. rewrite N, E. reflexivity.
    + assert (nth_error (seq (length h) (length m)) k = None) as -> by (apply nth_error_None in E; apply nth_error_None; rewrite seq_length; exact E). reflexivity.
  - intros a IN. apply in_seq in IN. rewrite app_length, L. lia.
Qed.

Lemma make_shape (w0 : world nat B Q) m bl r y e a b em pf c :
  make_cluster w0 m bl r y e (Some (a, b)) em pf = Ok c ->
  c_model c = m /\ c_base c = bl /\ c_r c = r /\ c_y c = y /\ c_e c = e /\ c_em c = em /\ c_pf c = pf.
Proof.
  unfold make_cluster, change_slice_from. cbn [c_model c_base c_r c_y c_e c_em c_pf c_never c_last].
  destruct (all_below w0 _ _ a b); [|discriminate]. intros [= <-]. repeat split.
Qed.
Lemma slice_shape (w0 : world nat B Q) c a b c' :
  change_slice_from w0 None c a b = (c', Ok tt) ->
  c_model c' = c_model c /\ c_base c' = c_base c /\ c_r c' = c_r c /\ c_y c' = c_y c /\ c_e c' = c_e c /\ c_em c' = c_em c /\ c_pf c' = c_pf c /\
  c_start c' = a /\ c_stop c' = b.
Proof. unfold change_slice_from. destruct (all_below w0 _ _ a b); [|discriminate]. intros [= <-]. repeat split. Qed.

(** A trace: the whole data range, the first cluster's baseline, data and settings, the
    ranges of the clusters, and the peaks of all clusters in position order. *)
Theorem C68_trace :
  forall h args recursion counter h' t,
    (forall h, argsort_ok (w_argsort (w h))) ->
    (forall c a, In c args -> In a (c_model c) -> (a < length h)%nat) ->
    maketrace w h args recursion counter = (h', Ok t) ->
    exists first rest, args = first :: rest /\
      Permutation (contents h' (c_model (tr_mc t))) (concat (map (fun c => contents h (c_model c)) args)) /\
      (rest <> [] -> pos_sorted (w_position (w h')) (c_model (tr_mc t))) /\
      (rest = [] -> contents h' (c_model (tr_mc t)) = contents h (c_model first)) /\
      c_start (tr_mc t) = 0%nat /\ c_stop (tr_mc t) = length (adat (c_r first)) /\
      c_base (tr_mc t) = c_base first /\ c_r (tr_mc t) = c_r first /\ c_y (tr_mc t) = c_y first /\ c_e (tr_mc t) = c_e first /\
      c_em (tr_mc t) = c_em first /\ c_pf (tr_mc t) = c_pf first /\
      tr_clusters t = map (fun c => (c_start c, c_stop c)) args /\ tr_recursion t = recursion /\ tr_counter t = counter /\
      (* the clusters' own peaks are untouched *)
      (forall a, (a < length h)%nat -> nth_error h' a = nth_error h a).
Proof.
  intros h args recursion counter h' t AS V. unfold maketrace. destruct args as [|first rest]; [discriminate|].
  pose proof (copy_contents h (c_model first) (fun a => V first a (or_introl eq_refl))) as CC.
  destruct (copy_peaks h (c_model first)) as [h1 m]. destruct CC as (CM & (tl & H1 & LT) & CA).
  destruct (copy_cluster (w h1) (set_model first m)) as [c|] eqn:CP; [|discriminate].
  unfold copy_cluster in CP. apply make_shape in CP as (M1 & B1 & R1 & Y1 & E1 & EM1 & PF1).
  cbn [set_model c_model c_base c_r c_y c_e c_em c_pf c_start c_stop] in M1, B1, R1, Y1, E1, EM1, PF1.
  destruct (change_slice_from (w h1) None c 0 (length (adat (c_r c)))) as [c1 [[]|]] eqn:CS; [|discriminate].
  apply slice_shape in CS as (M2 & B2 & R2 & Y2 & E2 & EM2 & PF2 & ST & SP).
  set (join := fun acc b => _).
  assert (J : forall l m0, exists m', fold_left join l (Ok m0) = Ok m' /\
            Permutation m' (m0 ++ concat (map (@c_model nat B) l)) /\ (l <> [] -> pos_sorted (w_position (w h1)) m') /\ (l = [] -> m' = m0)).
  { induction l as [|b l IH]; intros m0.
    - exists m0. split; [reflexivity|]. split; [cbn; now rewrite app_nil_r|]. split; [intros X; now elim X|reflexivity].
    - cbn [fold_left join]. unfold replacepeaks at 1. unfold slice_bounds, clamp. cbn [Z.ltb Z.compare].
      rewrite Z.min_l by lia. change (Z.to_nat 0) with 0%nat. cbn [Nat.max]. unfold slice at 1. cbn [Nat.sub firstn existsb].
      set (m1 := sort_peaks (w h1) (assign_slice m0 0 0 (c_model b))).
      assert (P1 : Permutation m1 (c_model b ++ m0)) by (unfold m1, assign_slice; cbn [firstn app skipn]; apply (sort_perm _ (AS h1))).
      assert (S1 : pos_sorted (w_position (w h1)) m1) by apply (sort_sorted _ (AS h1)).
      destruct (IH m1) as (m' & E & PM & SM & NM). exists m'. split; [exact E|]. split.
      + rewrite PM, P1. cbn [map concat]. rewrite <- app_assoc. rewrite (Permutation_app_comm (c_model b)). rewrite <- app_assoc. apply Permutation_app_head. apply Permutation_app_comm.
      + split; [intros _; destruct l as [|b' l]; [rewrite NM by reflexivity; exact S1|apply SM; discriminate]|discriminate]. }
  destruct (J rest (c_model c1)) as (m' & -> & PM & SM & NM).
  intros [= <- <-]. exists first, rest. split; [reflexivity|]. cbn [tr_mc set_model c_model c_base c_r c_y c_e c_em c_pf c_start c_stop tr_clusters tr_recursion tr_counter].
  assert (KEEP : forall a, (a < length h)%nat -> nth_error h1 a = nth_error h a) by (intros a L; rewrite H1; now apply nth_error_app1).
  assert (CK : forall l, (forall a, In a l -> (a < length h)%nat) -> contents h1 l = contents h l).
  { intros l L. unfold contents. apply map_ext_in. intros a IN. apply KEEP. auto. }
  rewrite M2, M1 in *.
  split.
  { rewrite (Permutation_map (nth_error h1) PM : Permutation (contents h1 m') _). fold (contents h1 (m ++ concat (map (@c_model nat B) rest))).
    unfold contents at 1. rewrite map_app. cbn [map concat]. apply Permutation_app; [fold (contents h1 m); rewrite CM; reflexivity|].
    rewrite concat_map, map_map. apply Permutation_refl'. f_equal. apply map_ext_in. intros c2 IN. apply CK. intros a IA. eapply V; [right; exact IN|exact IA]. }
  split; [exact SM|]. split; [intros N; rewrite (NM N); exact CM|].
  rewrite R1 in *. repeat split; try congruence; auto.
Qed.

(** A trace of one cluster is a snapshot: changing the cluster's peaks later (as fits do,
    in place) does not change it. *)
Definition later (h h' : list P) (old : nat) : Prop :=   (* only objects that existed before the trace are changed *)
  length h' = length h /\ forall a, (old <= a)%nat -> nth_error h' a = nth_error h a.
Theorem C68_snapshot_one :
  forall h c recursion counter h1 t h2,
    (forall a, In a (c_model c) -> (a < length h)%nat) ->
    maketrace w h [c] recursion counter = (h1, Ok t) -> later h1 h2 (length h) ->
    contents h2 (c_model (tr_mc t)) = contents h1 (c_model (tr_mc t)).
Proof.
  intros h c recursion counter h1 t h2 V. unfold maketrace.
  pose proof (copy_contents h (c_model c) V) as CC.
  destruct (copy_peaks h (c_model c)) as [h' m]. destruct CC as (CM & (tl & H1 & LT) & CA).
  destruct (copy_cluster (w h') (set_model c m)) as [c0|] eqn:CP; [|discriminate].
  unfold copy_cluster in CP. apply make_shape in CP as (M1 & _). cbn [set_model c_model] in M1.
  destruct (change_slice_from (w h') None c0 0 (length (adat (c_r c0)))) as [c1 [[]|]] eqn:CS; [|discriminate].
  apply slice_shape in CS as (M2 & _). cbn [fold_left]. intros [= <- <-] [_ L]. cbn [tr_mc set_model c_model].
  unfold contents. apply map_ext_in. intros a IN. apply L. rewrite M2, M1 in IN. apply CA in IN. lia.
Qed.
(** A trace of two clusters is not: the second one's peak objects are in it. *)
Theorem C94_snapshot_refuted :
  forall h c1 c2 recursion counter h1 t a p,
    (forall h, argsort_ok (w_argsort (w h))) ->
    (forall a, In a (c_model c1) -> (a < length h)%nat) -> (forall a, In a (c_model c2) -> (a < length h)%nat) ->
    maketrace w h [c1; c2] recursion counter = (h1, Ok t) -> In a (c_model c2) ->
    In (Some p) (contents (upd h1 a p) (c_model (tr_mc t))) /\ later h1 (upd h1 a p) (length h).
Proof.
  intros h c1 c2 recursion counter h1 t a p AS V1 V2 E IN.
  assert (AL : (a < length h1)%nat /\ In a (c_model (tr_mc t))).
  { unfold maketrace in E. pose proof (copy_contents h (c_model c1) V1) as CC.
    destruct (copy_peaks h (c_model c1)) as [h' m]. destruct CC as (CM & (tl & H1 & LT) & CA).
    destruct (copy_cluster (w h') (set_model c1 m)) as [c0|] eqn:CP; [|discriminate].
    destruct (change_slice_from (w h') None c0 0 (length (adat (c_r c0)))) as [c3 [[]|]] eqn:CS; [|discriminate].
    cbn [fold_left] in E. destruct (replacepeaks (w h') (c_model c3) (c_model c2) (Some 0) (Some 0)) as [m' [[]|]] eqn:R; [|discriminate].
    injection E as <- <-. split; [rewrite H1, app_length; specialize (V2 a IN); lia|]. cbn [tr_mc set_model c_model].
    unfold replacepeaks, slice_bounds, clamp in R. cbn [Z.ltb Z.compare] in R. rewrite Z.min_l in R by lia. change (Z.to_nat 0) with 0%nat in R. cbn [Nat.max] in R.
    unfold slice in R. cbn [Nat.sub firstn existsb] in R. injection R as <-.
    apply (Permutation_in a (Permutation_sym (sort_perm (w h') (AS h') _))). unfold assign_slice. cbn [firstn app]. apply in_or_app. now left. }
  destruct AL as [AL IT]. assert (US : nth_error (upd h1 a p) a = Some p).
  { clear -AL. revert a AL. induction h1 as [|b l IH]; intros [|a] H; cbn in *; try lia; [reflexivity|]. apply IH. lia. }
  assert (UD : forall b, a <> b -> nth_error (upd h1 a p) b = nth_error h1 b).
  { clear. revert a. induction h1 as [|x l IH]; intros [|a] [|b] H; cbn; auto; try congruence. }
  split; [unfold contents; rewrite <- US; apply in_map; exact IT|].
  split; [clear; revert a; induction h1 as [|b l IH]; intros [|a]; cbn; auto|].
  intros b LB. apply UD. specialize (V2 a IN). lia.
Qed.
End Snapshot.

(** ** The hypotheses are met *)
Example C63_example :
  let l := [PushR; Emit true (fun r c => (r, c)); PushC; PopC; Emit false (fun r c => (r, c)); PushR; Emit true (fun r c => (r, c)); PopR; PopC; PopR] in
  inside 1 l /\ net_c l = -1 /\ net_r l = 0 /\ passing l = 2 /\ made 0 0 l = [(1, 0); (2, 1)].
Proof.
  split; [|repeat split]. intros p q E.
  do 10 (destruct p as [|? p]; [cbn in E; injection E; intros; try discriminate; cbn; lia|]; cbn [app] in E; injection E as <- E).
  destruct p; discriminate.
Qed.
Example C63_exception_example :
  let l := [PushR; Emit true (fun r c => (r, c))] in let l' : list (event (Z * Z)) := [PopC] in
  inside 1 l /\ 0 < 1 + net_c l /\ inside (1 + net_c l) (PushC :: l') /\ net_c l' = -1 /\ net_r l' = 0.
Proof.
  split; [|split; [cbn; lia|split; [|repeat split]]]; intros p q E.
  - do 2 (destruct p as [|? p]; [discriminate|]; cbn [app] in E; injection E as <- E). destruct p; discriminate.
  - destruct p as [|? p]; [cbn; lia|]. cbn [app] in E. injection E as <- E. destruct p as [|? p]; [discriminate|]. injection E as <- E. destruct p; discriminate.
Qed.
Example C64_example :
  let t := mkT 5 7 1 3 in let lines (x : Z) := ["peak_funcs=[]"%string] in
  readstr (fun _ => Ok 5) (fun _ => Ok 7) (mkTr 1 9 2 (@nil unit)) (writestr lines (fun _ => "[slice(0, 3, None)]"%string) t) = Ok (mkT 5 7 2 9).
Proof. vm_compute. reflexivity. Qed.
(** two clusters of a six point grid with one peak each *)
Definition theap : list Z := [4; 1].
Definition tworld (h : list Z) : world nat Z unit :=
  mkWorld (fun z => z) (fun a => nth_error h a) (fun _ => true) (fun _ => false) (fun _ r => r) (fun _ _ => 1%nat) (fun _ _ => 1%nat)
    (fun _ r => r) Z.eqb isort (fun _ => 1%nat) (fun _ => tt) (fun _ _ => false) (fun _ _ _ => false) (fun _ => Ok None)
    (fun m b _ _ => ((m, b), Ok tt)) (fun a _ => a) (fun _ _ m => m).
Definition tc (m : list nat) a b : cluster nat Z := mkC m None (mkArr 0 [0; 1; 2; 3; 4; 5]) (mkArr 1 [1; 2; 1; 1; 3; 1]) (mkArr 2 [1; 1; 1; 1; 1; 1]) a b false 0 0 [].
Example C68_example :
  (forall h, argsort_ok (w_argsort (tworld h))) /\
  exists h t, maketrace tworld theap [tc [0%nat] 3 6; tc [1%nat] 0 3] 2 7 = (h, Ok t) /\ contents h (c_model (tr_mc t)) = [Some 1; Some 4].
Proof.
  split; [intros h; apply isort_ok|]. eexists _, _. split; [vm_compute; reflexivity|]. vm_compute. reflexivity.
Qed.

Print Assumptions C63_inside.
Print Assumptions C63_balanced.
Print Assumptions C63_outermost.
Print Assumptions C63_consecutive.
Print Assumptions C63_levels.
Print Assumptions C91_memory_refuted.
Print Assumptions C91_after_exception_refuted.
Print Assumptions C109_readstr_partial.
Print Assumptions C64_readstr_refuted.
Print Assumptions C64_read_refuted.
Print Assumptions C68_trace.
Print Assumptions C68_snapshot_one.
Print Assumptions C94_snapshot_refuted.

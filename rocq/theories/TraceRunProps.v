(** Property C219: the traces made by an extraction. *)
From Coq Require Import Permutation Sorted Reals.
From Verif Require Import Prelude ModelCluster ModelClusterProofs ModelClusterProps Prune PruneProofs PruneProps Extract ExtractProofs ExtractProps Tracer TracerProps TraceRun.
From Verif Require Evaluators Nyquist PdfExtract PdfExtractProps DataClusters DataClustersSpec DataClustersExamples.
Open Scope Z_scope.

(** ** Specification: what a log does to the counters, and the traces in it *)
Section Logs.
Context {C : Type}.
Notation log := (list (lev C)).
(** opened minus closed calls; opened minus closed recursion levels *)
Fixpoint calls (l : log) : Z := match l with [] => 0 | LPushC :: r => 1 + calls r | LPopC :: r => calls r - 1 | _ :: r => calls r end.
Fixpoint level (l : log) : Z := match l with [] => 0 | LPushR :: r => 1 + level r | LPopR :: r => level r - 1 | _ :: r => level r end.
(** Every call and level opened is closed again, nothing is closed that was not opened, and
    there are never more than d levels open. *)
Definition nested (d : Z) (l : log) : Prop :=
  calls l = 0 /\ level l = 0 /\ forall p q, l = p ++ q -> 0 <= calls p /\ 0 <= level p <= d.
(** The traces in order, each with the recursion level it is made at *)
Fixpoint traces (lvl : Z) (l : log) : list (Z * list C) :=
  match l with
  | [] => []
  | LPushR :: r => traces (lvl + 1) r
  | LPopR :: r => traces (lvl - 1) r
  | LEmit cs :: r => (lvl, cs) :: traces lvl r
  | _ :: r => traces lvl r
  end.
(** The traces made at level n *)
Definition at_level (n : Z) (ts : list (Z * list C)) : list (list C) := map snd (filter (fun t => fst t =? n) ts).

(** The tracer: every trace that passes the filter records its level, its number and its clusters. *)
Definition ev (pass : list C -> bool) (e : lev C) : event (Z * Z * list C) :=
  match e with
  | LPushC => PushC | LPopC => PopC | LPushR => PushR | LPopR => PopR
  | LEmit cs => Emit (pass cs) (fun r n => (r, n, cs))
  end.

Lemma calls_app a b : calls (a ++ b) = calls a + calls b.
Proof. induction a as [|[| | | |cs] a IH]; cbn [calls app]; lia. Qed.
Lemma level_app a b : level (a ++ b) = level a + level b.
Proof. induction a as [|[| | | |cs] a IH]; cbn [level app]; lia. Qed.
Lemma traces_app a b : forall n, traces n (a ++ b) = traces n a ++ traces (n + level a) b.
Proof.
  induction a as [|[| | | |cs] a IH]; intros n; cbn [traces app level]; rewrite ?IH; cbn [app]; repeat (f_equal; try lia).
Qed.
Lemma at_level_app n a b : at_level n (a ++ b) = at_level n a ++ at_level n b.
Proof. unfold at_level. now rewrite filter_app, map_app. Qed.

Lemma nested_nil d : 0 <= d -> nested d [].
Proof. intros H. repeat split; destruct p; try discriminate; cbn; lia. Qed.
Lemma nested_one d cs : 0 <= d -> nested d [LEmit cs].
Proof. intros H. do 2 (split; [reflexivity|]). intros p q E. destruct p as [|a [|b p]]; try discriminate; [cbn; lia|]. injection E as <- _. cbn. lia. Qed.
Lemma nested_app d a b : nested d a -> nested d b -> nested d (a ++ b).
Proof.
  intros (A1 & A2 & A3) (B1 & B2 & B3). unfold nested. rewrite calls_app, level_app. do 2 (split; [lia|]).
  intros p q E. symmetry in E. destruct (app_eq_app _ _ _ _ E) as (l & [(E1 & E2)|(E1 & E2)]).
  - rewrite E1, calls_app, level_app. destruct (B3 l q E2). lia.
  - destruct (A3 p l E1). lia.
Qed.
Lemma nested_weaken d d' l : d <= d' -> nested d l -> nested d' l.
Proof. intros H (A1 & A2 & A3). do 2 (split; [assumption|]). intros p q E. destruct (A3 p q E). lia. Qed.
Lemma nested_call d l : nested d l -> nested d (LPushC :: l ++ [LPopC]).
Proof.
  intros (A1 & A2 & A3). unfold nested. cbn [calls level]. rewrite calls_app, level_app. cbn [calls level]. do 2 (split; [lia|]).
  intros p q E. destruct p as [|a p]; [destruct (A3 [] l eq_refl); cbn in *; lia|]. injection E as <- E. cbn [calls level].
  symmetry in E. destruct (app_eq_app _ _ _ _ E) as (l' & [(E1 & E2)|(E1 & E2)]).
  - rewrite E1, calls_app, level_app. destruct (A3 l [] (eq_sym (app_nil_r l))). destruct l' as [|b [|b' l']]; try discriminate; [cbn [calls level]; lia|].
    injection E2 as <- _. cbn [calls level]. lia.
  - destruct (A3 p l' E1). lia.
Qed.
Lemma nested_search d l : 0 <= d -> nested d l -> nested (1 + d) (LPushC :: LPushR :: l ++ [LPopC; LPopR]).
Proof.
  intros D (A1 & A2 & A3). unfold nested. cbn [calls level]. rewrite calls_app, level_app. cbn [calls level]. do 2 (split; [lia|]).
  intros p q E. destruct p as [|a [|b p]]; [cbn [calls level]; lia|injection E as <- _; cbn [calls level]; lia|]. injection E as <- <- E. cbn [calls level].
  symmetry in E. destruct (app_eq_app _ _ _ _ E) as (l' & [(E1 & E2)|(E1 & E2)]).
  - rewrite E1, calls_app, level_app. destruct l' as [|b [|b' [|b2 l']]]; try discriminate.
    + cbn [calls level]; lia.
    + injection E2 as <- _. cbn [calls level]. lia.
    + injection E2 as <- <- _. cbn [calls level]. lia.
  - destruct (A3 p l' E1). lia.
Qed.
Lemma in_traces l : forall n t, In t (traces n l) -> exists p q, l = p ++ LEmit (snd t) :: q /\ fst t = n + level p.
Proof.
  induction l as [|[| | | |cs] l IH]; intros n t H; cbn [traces] in H; [contradiction| | | | |].
  1-4: destruct (IH _ _ H) as (p & q & -> & E); [eexists (_ :: p), q; split; [reflexivity|cbn [level]; lia]].
  destruct H as [<-|H]; [exists [], l; split; [reflexivity|cbn; lia]|]. destruct (IH _ _ H) as (p & q & -> & E). exists (LEmit cs :: p), q. split; [reflexivity|exact E].
Qed.
Lemma nested_levels d l n t : nested d l -> In t (traces n l) -> n <= fst t <= n + d.
Proof. intros (_ & _ & A3) H. destruct (in_traces _ _ _ H) as (p & q & -> & E). destruct (A3 p _ eq_refl). lia. Qed.
Lemma above_none n l : (forall t, In t l -> n < fst t) -> at_level n l = [].
Proof.
  intros H. unfold at_level. induction l as [|t l IH]; [reflexivity|]. cbn [filter]. destruct (Z.eqb_spec (fst t) n) as [E|E].
  - specialize (H t (or_introl eq_refl)). lia.
  - apply IH. intros t' H'. apply H. now right.
Qed.
(** no trace at the level the log starts with *)
Definition deep (d : Z) (l : log) : Prop := nested d l /\ forall n t, In t (traces n l) -> n < fst t.
Lemma deep_app d a b : deep d a -> deep d b -> deep d (a ++ b).
Proof.
  intros (A1 & A2) (B1 & B2). split; [now apply nested_app|]. intros n t H. rewrite traces_app in H. apply in_app_or in H as [H|H]; [now apply A2|].
  apply B2 in H. destruct A1 as (_ & L & _). lia.
Qed.
Lemma deep_nil d : 0 <= d -> deep d [].
Proof. intros H. split; [now apply nested_nil|]. intros n t []. Qed.
Lemma deep_weaken d d' l : d <= d' -> deep d l -> deep d' l.
Proof. intros H (A & A'). split; [eapply nested_weaken; eauto|exact A']. Qed.

(** *** Logs and the tracer of Tracer.v *)
Lemma ev_calls pass l : net_c (map (ev pass) l) = calls l.
Proof. induction l as [|e l IH]; [reflexivity|]. destruct e as [| | | |cs]; cbn [map ev net_c fold_right calls]; fold (net_c (map (ev pass) l)); lia. Qed.
Lemma ev_level pass l : net_r (map (ev pass) l) = level l.
Proof. induction l as [|e l IH]; [reflexivity|]. destruct e as [| | | |cs]; cbn [map ev net_r fold_right level]; fold (net_r (map (ev pass) l)); lia. Qed.
(** numbering the traces that pass *)
Fixpoint numbered (pass : list C -> bool) (k : Z) (ts : list (Z * list C)) : list (Z * Z * list C) :=
  match ts with
  | [] => []
  | (r, cs) :: ts => if pass cs then (r, k, cs) :: numbered pass (k + 1) ts else numbered pass k ts
  end.
Lemma ev_made pass l : forall r k, made r k (map (ev pass) l) = numbered pass k (traces r l).
Proof.
  induction l as [|[| | | |cs] l IH]; intros r k; cbn [map ev made traces numbered]; auto. destruct (pass cs); cbn [made]; now rewrite IH.
Qed.
Lemma ev_passing pass l : forall r k, passing (map (ev pass) l) = Z.of_nat (length (numbered pass k (traces r l))).
Proof.
  induction l as [|e l IH]; intros r k; [reflexivity|]. destruct e as [| | | |cs]; cbn [map ev passing fold_right traces numbered]; fold (passing (map (ev pass) l)); auto.
  destruct (pass cs); [rewrite (IH r (k + 1)); cbn [length]; lia|apply IH].
Qed.
Lemma ev_inside d l pass : nested d l -> inside 1 (map (ev pass) l).
Proof.
  intros (_ & _ & A3) p q E. destruct (map_eq_app _ _ _ _ E) as (a & b & -> & <- & _). rewrite ev_calls. destruct (A3 a b eq_refl). lia.
Qed.
(** An outermost call that does balanced work: afterwards the counters are back where they
    started, and its traces are added to the memory, numbered 0, 1, 2, ... *)
Lemma outermost l pass (s : tracer (Z * Z * list C)) :
  t_call s = 0 -> (forall p q, l = p ++ LPushC :: q -> 0 <= calls p) -> calls l = -1 -> level l = 0 ->
  events s (map (ev pass) (LPushC :: l)) =
  mkTr 0 (Z.of_nat (length (numbered pass 0 (traces 0 l)))) 0 (t_trace s ++ numbered pass 0 (traces 0 l)).
Proof.
  intros S N C1 L1. cbn [map ev]. rewrite C63_outermost; [|exact S| | |].
  - now rewrite (ev_passing pass _ 0 0), ev_made.
  - intros p q E. destruct (map_eq_app _ _ _ _ E) as (a & b & E1 & <- & E2). rewrite ev_calls.
    destruct b as [|x b]; [discriminate|]. injection E2 as E2 _. destruct x; try discriminate. specialize (N a b E1). lia.
  - rewrite ev_calls. exact C1.
  - rewrite ev_level. exact L1.
Qed.
Lemma inner_calls d l t : nested d l -> (forall x, In x t -> x <> LPushC) -> forall p q, l ++ t = p ++ LPushC :: q -> 0 <= calls p.
Proof.
  intros (N1 & N2 & N3) H p q E. destruct (app_eq_app _ _ _ _ E) as (l' & [(E3 & E4)|(E3 & E4)]).
  - destruct (N3 p l' E3). lia.
  - exfalso. apply (H LPushC); [|reflexivity]. rewrite E4. apply in_or_app. right. now left.
Qed.
End Logs.

(** ** Prunings *)
Section Prune.
Context {P B Q L0 : Type}.
Variable T : xtools P B Q.
Notation w := (t_w T).
Notation cluster := (cluster P B).

Lemma nested_emits d (ms : list (list cluster)) : 0 <= d -> nested d (map LEmit ms).
Proof. intros D. induction ms as [|m ms IH]; cbn [map]; [now apply nested_nil|]. now apply (nested_app d [LEmit m]); [apply nested_one|]. Qed.
Lemma traces_emits n (ms : list (list cluster)) : traces n (map LEmit ms) = map (fun m => (n, m)) ms.
Proof. induction ms as [|m ms IH]; cbn [map traces]; congruence. Qed.

(** each list of peaks shorter than the one before *)
Fixpoint shrinking (n : nat) (ms : list (list P)) : Prop :=
  match ms with [] => True | m :: r => (length m < n)%nat /\ shrinking (length m) r end.

Lemma last_cons {A} (l : list A) : forall a d, last (a :: l) d = last l a.
Proof. induction l as [|b l IH]; intros a d; [reflexivity|]. transitivity (last (b :: l) d); [reflexivity|]. now rewrite !IH. Qed.

Lemma prune_loop_traced : forall fuel rc yn cur best norig bq mc live m u,
  prune_loop w (t_qk T) (t_qargmax T) fuel rc yn cur best norig bq mc live = Some (m, Ok u) ->
  m = last (prune_loop_models T fuel rc yn best norig bq mc live) cur.
Proof.
  induction fuel as [|fuel IH]; intros rc yn cur best norig bq mc live m u E; [discriminate|]. cbn [prune_loop prune_loop_models] in *.
  destruct (negb _); [now injection E as <-|]. destruct (check_peaks _ _ _ _ _ _ _ _) as [[[mc1 cks] qs]|]; [|discriminate].
  destruct qs as [|q0 qs]; [discriminate|]. destruct (nth_error (q0 :: qs) _) as [[idx nq]|]; [|discriminate].
  destruct (w_qlt w bq nq); [|now injection E as <-]. destruct (nth_error cks idx) as [[l|]|]; try discriminate. cbv zeta in *.
  set (f := fit w _ false 0 false false) in *. destruct (fr_out f); [|discriminate].
  destruct (c_model (fr_c f)) as [|p1 m1] eqn:CM; [now injection E as <-|]. rewrite (IH _ _ _ _ _ _ _ _ _ _ E).
  symmetry. apply last_cons.
Qed.
Lemma prune_loop_shrinks (lab : P -> L0) : argsort_ok (w_argsort w) -> engine_shape w lab ->
  forall fuel rc yn best norig bq mc live, (length best <= norig)%nat ->
  shrinking (length best) (prune_loop_models T fuel rc yn best norig bq mc live).
Proof.
  intros AS ES. induction fuel as [|fuel IH]; intros rc yn best norig bq mc live Hn; [exact I|]. cbn [prune_loop_models].
  destruct (negb _); [exact I|].
  destruct (check_peaks w (t_qk T) best bq rc yn (seq 0 (length best)) mc) as [[[mc1 cks] qs]|] eqn:CP; [|exact I].
  destruct (check_peaks_spec w (t_qk T) lab AS ES _ _ _ _ _ _ _ _ _ CP) as (L1 & L2 & L3 & _).
  destruct (nth_error qs _) as [[idx nq]|] eqn:NQ; [|exact I].
  destruct (w_qlt w bq nq) eqn:QL; [|exact I].
  destruct (nth_error cks idx) as [[l|]|] eqn:NC; try exact I. cbv zeta.
  set (c2 := set_y _ _). set (f := fit w c2 false 0 false false).
  destruct (fr_out f); [|exact I].
  assert (II : (idx < length best)%nat).
  { apply nth_error_In in NQ. apply L2 in NQ. apply in_seq in NQ. lia. }
  destruct (L3 idx idx (nth_seq _ _ II)) as (o & p & A1 & A2 & A3 & A4). rewrite NC in A1. injection A1 as <-.
  destruct (w_removable w p) eqn:RM; [|discriminate (A3 eq_refl)].
  destruct (A4 eq_refl) as (q & _ & _ & KL). specialize (KL l eq_refl).
  destruct (local_model_perm best idx p A2) as (front & back & EB & EF & EK). specialize (EK norig Hn).
  assert (LB : (length (c_model c2) < length best)%nat).
  { unfold c2. cbn [set_y set_model c_model]. rewrite <- EF, <- EK. apply kept_len in KL. unfold local_model in KL.
    apply (f_equal (@length P)) in EB. rewrite !app_length in *. cbn [length] in EB. rewrite app_length in EB. lia. }
  pose proof (fit_kept w lab AS ES c2 false 0) as [FK _]. fold f in FK. apply kept_len in FK.
  cbn [shrinking]. split; [lia|]. destruct (c_model (fr_c f)) as [|p1 m1] eqn:CM; [exact I|]. apply IH. cbn [length] in *. lia.
Qed.

(** prune: one call; its traces are the successive models, the last of them its result. *)
Lemma prune_traced fuel (c : cluster) m u :
  prune w (t_qk T) (t_qargmax T) fuel c = Some (m, Ok u) ->
  nested 0 (prune_log T fuel c) /\
  exists ms, (forall n, traces n (prune_log T fuel c) = map (fun m' => (n, [set_model c m'])) ms) /\ last ms (c_model c) = m /\
    (forall (lab : P -> L0), argsort_ok (w_argsort w) -> engine_shape w lab -> shrinking (length (c_model c)) ms).
Proof.
  intros E. unfold prune, prune_log in *. destruct (c_model c) as [|p0 r0] eqn:M.
  - injection E as <- _. split; [apply nested_nil; lia|]. exists []. repeat split.
  - destruct (make_cluster _ _ _ _ _ _ _ _ _) as [mc|]; [|discriminate]. rewrite (prune_loop_traced _ _ _ _ _ _ _ _ _ _ _ E).
    set (ms := prune_loop_models _ _ _ _ _ _ _ _ _).
    replace (map (fun m => LEmit [set_model c m]) ms) with (map LEmit (map (fun m => [set_model c m]) ms)) by apply map_map.
    split; [now apply nested_call, nested_emits|]. exists ms. split; [|split].
    + intros n. cbn [traces]. rewrite traces_app, traces_emits. cbn [traces]. rewrite app_nil_r. apply map_map.
    + reflexivity.
    + intros lab AS ES. apply (prune_loop_shrinks lab AS ES). reflexivity.
Qed.
End Prune.

(** ** Searches *)
Section Search.
Context {P B Q L0 : Type}.
Variable T : xtools P B Q.
Notation w := (t_w T).
Notation cluster := (cluster P B).
Notation log := (list (lev cluster)).
Variables (bl : B) (cres : Z) (em : nat) (pf : list nat).

Section OneCall.
Variable rec : list Z -> list Z -> list Z -> option (result cluster).
Variable lrec : list Z -> list Z -> list Z -> log.
Variable depth : nat.
Variables ax ay ae : array.
Variable yd : list Z.
Notation d := (Z.of_nat (3 - depth)).
(** nested searches that succeed *)
Hypothesis REC : (depth < 3)%nat -> forall rx ry re r, rec rx ry re = Some (Ok r) -> deep d (lrec rx ry re).

Lemma recurse_deep h m en c c' :
  recurse_on T em pf rec depth ax ay ae h m en c = Some (Ok c') -> deep d (recurse_log T em pf lrec depth ax ay ae h m en).
Proof.
  intros E. unfold recurse_on, recurse_log in *. apply obind_ok in E as (mn & E1 & E). apply lift_ok in E1. apply obind_ok in E as (chk & E2 & E). apply lift_ok in E2.
  rewrite E1, E2. destruct (en && w_growth w (w_quality w chk) chk mn && (depth <? 3)%nat) eqn:G; [|apply deep_nil; lia].
  apply obind_ok in E as (r & ER & _). apply andb_prop in G as [_ G]. apply Nat.ltb_lt in G. eapply REC; eauto.
Qed.
Lemma boundary_deep mcs k m' :
  boundary T bl em pf rec depth ax ay ae mcs k = Some (Ok m') -> deep d (boundary_log T em pf lrec depth ax ay ae mcs k).
Proof.
  intros E. unfold boundary, boundary_log in *. destruct (nth_error mcs k) as [c|]; [|discriminate].
  apply obind_ok in E as (c0 & E1 & E). apply lift_ok in E1. apply obind_ok in E as (full & E2 & E). apply lift_ok in E2.
  apply obind_ok in E as (bx & E3 & E). apply lift_ok in E3. apply obind_ok in E as (by_ & E4 & E). cbv zeta in E.
  rewrite E1. cbn [bind]. rewrite E2. cbn [bind]. rewrite E3. cbn [bind]. cbv zeta.
  apply obind_ok in E as (a & E5 & E). apply obind_ok in E as (a' & E6 & E). eapply recurse_deep, E6.
Qed.
Lemma pair_deep cs mcs i m' :
  combine_pair T bl em pf rec depth ax ay ae cs mcs i = Some (Ok m') -> deep d (combine_pair_log T bl em pf lrec depth ax ay ae cs mcs i).
Proof.
  intros E. unfold combine_pair, combine_pair_log in *. destruct (nth_error cs (i - 1)) as [cl|]; [|discriminate]. destruct (nth_error cs i) as [cr|]; [|discriminate].
  destruct (nth_error mcs (i - 1)) as [ml|]; [|discriminate]. destruct (nth_error mcs i) as [mr|]; [|discriminate].
  apply obind_ok in E as (new & E1 & E). apply lift_ok in E1. apply obind_ok in E as (x1 & E2 & E). apply lift_ok in E2. apply obind_ok in E as (x2 & E3 & E). apply lift_ok in E3.
  apply obind_ok in E as (y1 & E4 & E). apply lift_ok in E4. apply obind_ok in E as (y2 & E5 & E). apply lift_ok in E5. cbv zeta in E.
  apply obind_ok in E as (a & E6 & E). apply lift_ok in E6. apply obind_ok in E as (a1 & E7 & E). apply obind_ok in E as (a2 & E8 & _).
  rewrite E1. cbn [bind]. rewrite E2. cbn [bind]. rewrite E3. cbn [bind]. rewrite E4. cbn [bind]. rewrite E5. cbn [bind]. cbv zeta. rewrite E6. cbn [bind].
  apply deep_app.
  - unfold first_variant, first_variant_log in *. destruct (length _ =? 2)%nat; [|apply deep_nil; lia]. cbv zeta in *.
    destruct (reduce_to _ _ _ _) as [a0 [u|]]; [|discriminate]. eapply recurse_deep, E7.
  - unfold second_variant, second_variant_log in *. apply obind_ok in E8 as (b & EB & E8). apply lift_ok in EB. rewrite EB. eapply recurse_deep, E8.
Qed.
Lemma all_deep cs is : forall mcs m',
  combine_all T bl em pf rec depth ax ay ae cs mcs is = Some (Ok m') -> deep d (combine_all_log T bl em pf rec lrec depth ax ay ae cs mcs is).
Proof.
  induction is as [|i is IH]; intros mcs m' E; cbn [combine_all combine_all_log] in *; [apply deep_nil; lia|].
  apply obind_ok in E as (m1 & E1 & E). apply deep_app; [eapply pair_deep, E1|]. rewrite E1. eapply IH, E.
Qed.
Lemma body_deep mp s m adj u :
  body T bl em pf rec depth ax ay ae mp s m adj = Some (Ok u) -> deep d (body_log T bl em pf rec lrec depth ax ay ae mp s m adj).
Proof.
  intros E. unfold body, body_log in *. destruct (DataClusters.lastc s) as [k|]; [|discriminate]. destruct (DataClusters.lastp s) as [p|]; [|discriminate].
  apply obind_ok in E as (m1 & E1 & E). apply lift_ok in E1. apply obind_ok in E as (m2 & E2 & E). apply lift_ok in E2.
  apply obind_ok in E as (m3 & E3 & E). apply obind_ok in E as (m4 & E4 & E). rewrite E1. cbn [bind]. rewrite E2. cbv zeta. rewrite E3.
  apply deep_app; [|eapply all_deep, E4]. destruct (_ || _); [eapply boundary_deep, E3|apply deep_nil; lia].
Qed.

(** The steps of the loop: the lists of clusters emitted, one per pass. *)
Fixpoint loop_steps (fuel : nat) (mp : Z) (s : DataClusters.dc) (mcs : list cluster) : list (list cluster) :=
  match fuel with
  | O => []
  | S f =>
    match DataClusters.next (w_rnd w) s with
    | (s1, Ok _) =>
      match iteration T bl em pf rec depth ax ay ae mp s1 mcs with
      | Some (Ok (s2, m2)) => m2 :: loop_steps f mp s2 m2
      | _ => []
      end
    | _ => []
    end
  end.
Lemma loop_traced mp : forall fuel s mcs u,
  loop T bl em pf rec depth ax ay ae fuel mp s mcs = Some (Ok u) ->
  nested d (loop_log T bl em pf rec lrec depth ax ay ae fuel mp s mcs) /\
  (forall n, at_level n (traces n (loop_log T bl em pf rec lrec depth ax ay ae fuel mp s mcs)) = loop_steps fuel mp s mcs) /\
  snd u = last (loop_steps fuel mp s mcs) mcs.
Proof.
  induction fuel as [|fuel IH]; intros s mcs u E; [discriminate|]. cbn [loop loop_log loop_steps] in *.
  destruct (DataClusters.next (w_rnd w) s) as [s1 [t|e]].
  - unfold iteration in *. apply obind_ok in E as ([s2 m2] & E1 & E). rewrite E1.
    apply obind_ok in E1 as ([m1 adj] & EH & E1). apply lift_ok in EH. rewrite EH, E1.
    pose proof (body_deep _ _ _ _ _ E1) as D. destruct (IH _ _ _ E) as (I1 & I2 & I3). split; [|split].
    + apply nested_app; [apply D|]. apply (nested_app d [LEmit m2]); [apply nested_one; lia|exact I1].
    + intros n. rewrite traces_app, at_level_app. destruct D as (D1 & D2). destruct D1 as (_ & L & _). rewrite L, Z.add_0_r.
      rewrite (above_none n (traces n _) (D2 n)). cbn [traces app]. unfold at_level in *. cbn [filter fst]. rewrite Z.eqb_refl. cbn [map snd]. now rewrite I2.
    + rewrite I3. symmetry. apply last_cons.
  - destruct e; try discriminate. injection E as <-. split; [apply nested_nil; lia|]. split; reflexivity.
Qed.

Lemma finish_traced mcs ip c :
  finish T depth mcs ip = Some (Ok c) ->
  nested 0 (finish_log T mcs ip) /\
  exists c0 c1 rest ms, mcs = c0 :: rest /\ addexternalpeaks T c0 ip = Ok c1 /\
    (forall n, traces n (finish_log T mcs ip) = map (fun m' => (n, [set_model c1 m'])) ms) /\
    (forall (lab : P -> L0), argsort_ok (w_argsort w) -> engine_shape w lab -> shrinking (length (c_model c1)) ms) /\
    let c2 := set_model c1 (last ms (c_model c1)) in
    c = (if (depth =? 1)%nat then fr_c (fit w c2 false 0 true true) else c2).
Proof.
  intros E. unfold finish, finish_log in *. destruct mcs as [|c0 rest]; [discriminate|]. apply obind_ok in E as (c1 & E1 & E). apply lift_ok in E1. rewrite E1.
  destruct (prune w (t_qk T) (t_qargmax T) (S (length (c_model c1))) c1) as [[m [u|]]|] eqn:PR; try discriminate.
  destruct (prune_traced (L0 := L0) T _ _ _ _ PR) as (N & ms & T1 & T2 & T3). split; [exact N|]. exists c0, c1, rest, ms.
  split; [reflexivity|]. split; [exact E1|]. split; [exact T1|]. split; [exact T3|]. cbv zeta. rewrite T2.
  destruct (depth =? 1)%nat; [|now injection E as <-]. cbv zeta in E. destruct (fr_out _); [|discriminate]. now injection E as <-.
Qed.

Lemma run_traced ip c :
  run T bl cres em pf rec depth ax ay ae yd ip = Some (Ok c) ->
  exists s mcs mp u c0 c1 rest ms l,
    start T bl cres em pf ax ay ae yd = Ok (s, mcs, mp) /\
    loop T bl em pf rec depth ax ay ae (S (length (adat ax))) mp s mcs = Some (Ok u) /\ snd u = c0 :: rest /\
    run_log T bl cres em pf rec lrec depth ax ay ae yd ip = LPushC :: LPushR :: l ++ [LPopC; LPopR] /\
    nested d l /\
    (forall n, at_level n (traces n l) = loop_steps (S (length (adat ax))) mp s mcs ++ map (fun m' => [set_model c1 m']) ms) /\
    addexternalpeaks T c0 ip = Ok c1 /\
    (forall (lab : P -> L0), argsort_ok (w_argsort w) -> engine_shape w lab -> shrinking (length (c_model c1)) ms) /\
    let c2 := set_model c1 (last ms (c_model c1)) in
    c = (if (depth =? 1)%nat then fr_c (fit w c2 false 0 true true) else c2).
Proof.
  intros E. unfold run, run_log in *. apply obind_ok in E as ([[s mcs] mp] & E0 & E). apply lift_ok in E0. apply obind_ok in E as (u & EL & E).
  destruct (loop_traced _ _ _ _ _ EL) as (N1 & A1 & U). destruct (finish_traced _ _ _ E) as (N2 & c0 & c1 & rest & ms & F1 & F2 & F3 & F4 & F5).
  rewrite E0, EL, app_assoc.
  eexists s, mcs, mp, u, c0, c1, rest, ms, _. split; [reflexivity|]. split; [exact EL|]. split; [exact F1|]. split; [reflexivity|].
  split; [apply nested_app; [exact N1|eapply nested_weaken; [|exact N2]; lia]|].
  split; [|auto]. intros n. rewrite traces_app, at_level_app, A1. f_equal. destruct N1 as (_ & L & _). rewrite L, Z.add_0_r, F3.
  unfold at_level. clear. induction ms as [|m ms IH]; [reflexivity|]. cbn [map filter fst]. rewrite Z.eqb_refl. cbn [map snd]. now rewrite IH.
Qed.
Lemma run_deep ip c : run T bl cres em pf rec depth ax ay ae yd ip = Some (Ok c) ->
  deep (1 + d) (run_log T bl cres em pf rec lrec depth ax ay ae yd ip).
Proof.
  intros E. destruct (run_traced _ _ E) as (s & mcs & mp & u & c0 & c1 & rest & ms & l & _ & _ & _ & -> & N & _). split; [apply nested_search; [lia|exact N]|].
  intros n t H. cbn [traces] in H. rewrite traces_app in H. cbn [traces] in H. rewrite app_nil_r in H. destruct (nested_levels _ _ _ _ N H). lia.
Qed.
End OneCall.

Lemma extract_deep : forall fuel depth x y e ip c,
  extract T bl cres em pf fuel depth x y e ip = Some (Ok c) -> deep (1 + Z.of_nat (3 - depth)) (extract_log T bl cres em pf fuel depth x y e ip).
Proof.
  induction fuel as [|fuel IH]; intros depth x y e ip c E; [discriminate|]. cbn [extract extract_log] in *. eapply run_deep; [|exact E].
  cbn beta. intros D rx ry re r H. destruct rx as [|r0 rx]; [discriminate|]. eapply deep_weaken; [|eapply IH, H]. lia.
Qed.

(** *** What the steps are *)
Section Steps.
Variable rec : list Z -> list Z -> list Z -> option (result cluster).
Variable depth : nat.
Variables ax ay ae : array.
Variable yd : list Z.
Hypothesis SN : sane T bl.
Hypothesis ARR : arrays_ok ax ay ae.
Lemma steps_ok mp : forall fuel s mcs, at_loop_head T bl cres em pf rec depth ax ay ae yd mp s mcs ->
  (length (loop_steps rec depth ax ay ae fuel mp s mcs) <= DataClusters.cur s)%nat /\
  forall st, In st (loop_steps rec depth ax ay ae fuel mp s mcs) ->
    exists ranges, well_formed (Z.of_nat (length (adat ax))) ranges /\ (forall i, ~ touching ranges i) /\
      Forall2 (models_range bl em ax ay ae) ranges st.
Proof.
  induction fuel as [|fuel IH]; intros s mcs H; cbn [loop_steps]; [cbn [length]; split; [lia|contradiction]|].
  destruct (DataClusters.next (w_rnd w) s) as [s1 [[]|e]] eqn:N; [|cbn [length]; split; [lia|contradiction]].
  destruct (iteration T bl em pf rec depth ax ay ae mp s1 mcs) as [[[s2 m2]|]|] eqn:E; [|cbn [length]; split; [lia|contradiction]..].
  pose proof (at_again _ _ _ _ _ _ _ _ _ _ _ _ _ _ _ _ _ H N E) as H2. destruct (IH _ _ H2) as (I1 & I2).
  pose proof (head_inv T bl cres em pf rec depth ax ay ae yd SN ARR _ _ _ H) as I.
  pose proof (next_cur T bl cres ax ay ae yd SN ARR _ _ (i_reach _ _ _ _ _ _ _ _ _ _ I) N) as C.
  unfold iteration in E. apply obind_ok in E as ([m1 adj] & _ & E). pose proof (body_cur T bl em pf rec depth ax ay ae _ _ _ _ _ _ E) as C2.
  cbn [length]. split; [lia|]. intros st [<-|Hs]; [|now apply I2].
  destruct (C49_models_match_clusters T bl cres em pf rec depth ax ay ae yd SN ARR _ _ _ H2) as (F & W & NT). exists (dcl s2). auto.
Qed.
End Steps.

(** ** C219 *)
(** The traces of a search that succeeds.  Every call and recursion level it opens it closes
    again; at depth 1 at most three levels are open at a time.  All its traces are made at
    level 1 or deeper.  Those at level 1 are its own: first the steps of its loop, fewer
    than there are points, each a list of models of disjoint, ascending, separate ranges
    of the data, the last one a single model of all the data; then the models tried by
    pruning, each a model of all the data with fewer peaks than the one before, and the
    last one of them the result, up to the last fit of an outermost search. *)
Theorem C219_search :
  forall fuel depth x y e ip c,
    sane T bl -> DataClustersSpec.increasing x -> x <> [] -> length y = length x -> length e = length x ->
    extract T bl cres em pf fuel depth x y e ip = Some (Ok c) ->
    let l := extract_log T bl cres em pf fuel depth x y e ip in
    nested (1 + Z.of_nat (3 - depth)) l /\ (forall t, In t (traces 0 l) -> 1 <= fst t <= 1 + Z.of_nat (3 - depth)) /\
    exists steps c0 c1 pruned,
      at_level 1 (traces 0 l) = steps ++ map (fun m => [set_model c1 m]) pruned /\
      (length steps < length x)%nat /\
      (forall st, In st steps -> exists ranges, well_formed (Z.of_nat (length x)) ranges /\ (forall i, ~ touching ranges i) /\
         Forall2 (fun r c' => Z.of_nat (c_start c') = fst r /\ Z.of_nat (c_stop c') = snd r + 1 /\ adat (c_r c') = x /\ adat (c_e c') = e) ranges st) /\
      last steps [c0] = [c0] /\
      c_start c0 = 0%nat /\ c_stop c0 = length x /\ adat (c_r c0) = x /\
      c_start c1 = 0%nat /\ c_stop c1 = length x /\ adat (c_r c1) = x /\ Permutation (c_model c1) (ip ++ c_model c0) /\
      (forall (lab : P -> L0), engine_shape w lab -> shrinking (length (c_model c1)) pruned) /\
      let c2 := set_model c1 (last pruned (c_model c1)) in
      c = (if (depth =? 1)%nat then fr_c (fit w c2 false 0 true true) else c2).
Proof.
  intros fuel depth x y e ip c SN HI HN LY LE E l.
  assert (DP : deep (1 + Z.of_nat (3 - depth)) l) by (eapply extract_deep, E). split; [apply DP|]. split.
  { intros t H. pose proof (proj2 DP 0 t H). pose proof (nested_levels _ _ _ _ (proj1 DP) H). lia. }
  unfold l. clear l DP. destruct fuel as [|fuel]; [discriminate|]. cbn [extract extract_log] in *.
  assert (LS : length (vsum w x ip) = length y) by (rewrite (ExtractProps.vsum_len T bl) by exact SN; congruence).
  assert (AR : arrays_ok (mkArr 0 x) (mkArr 1 (vsub w y (vsum w x ip))) (mkArr 2 e)).
  { unfold arrays_ok. cbn [adat]. rewrite (ExtractProps.vsub_len T); auto. }
  set (lrec := fun rx ry re => match rx with [] => [] | _ => extract_log T bl cres em pf fuel (S depth) rx ry (default_edy T ry re) [] end).
  match type of E with run _ _ _ _ _ ?r _ _ _ _ _ _ = _ => set (rec := r) in * end.
  assert (REC : (depth < 3)%nat -> forall rx ry re r, rec rx ry re = Some (Ok r) -> deep (Z.of_nat (3 - depth)) (lrec rx ry re)).
  { unfold rec, lrec. intros D rx ry re r H. destruct rx as [|r0 rx]; [discriminate|]. eapply deep_weaken; [|eapply extract_deep, H]. lia. }
  destruct (run_traced rec lrec depth _ _ _ _ REC _ _ E) as (s & mcs & mp & u & c0 & c1 & rest & ms & l & R1 & R2 & R3 & -> & R5 & R6 & R7 & R8 & R9).
  pose proof (at_start T bl cres em pf rec depth _ _ _ _ _ _ _ R1) as HD.
  destruct (loop_result T bl cres em pf rec depth _ _ _ _ SN AR _ _ _ _ _ HD R2) as (c0' & U & M0). rewrite R3 in U. injection U as -> ->.
  destruct (loop_traced rec lrec depth _ _ _ REC _ _ _ _ _ R2) as (_ & _ & U). rewrite R3 in U.
  destruct (steps_ok rec depth _ _ _ _ SN AR mp (S (length x)) s mcs HD) as (ST1 & ST2). cbn [adat] in *.
  exists (loop_steps rec depth (mkArr 0 x) (mkArr 1 (vsub w y (vsum w x ip))) (mkArr 2 e) (S (length x)) mp s mcs), c0', c1, ms.
  split; [|split; [|split; [|split]]].
  - cbn [traces]. rewrite traces_app. cbn [traces]. rewrite app_nil_r. apply (R6 1).
  - pose proof (ExtractProps.start_cur T bl cres em pf _ _ _ _ SN s mcs mp R1) as SC. clear - ST1 SC R1 HN SN.
    unfold start in R1. cbn [adat] in *. destruct (DataClusters.construct (t_argsort T) x _ cres) as [s0|] eqn:CS; cbn [bind] in R1; [|discriminate].
    destruct (DataClusters.cut s0 0); cbn [bind] in R1; [|discriminate]. destruct (fresh _ _ _ _ _ _ _ _); cbn [bind] in R1; [|discriminate].
    destruct (minpoints_of T em pf); cbn [bind] in R1; [|discriminate]. injection R1 as <- _ _.
    unfold DataClusters.construct in CS. destruct (negb _) eqn:EL; [discriminate|]. apply negb_false_iff, Nat.eqb_eq in EL.
    destruct (cres <? 0); [discriminate|]. destruct (Nat.eqb_spec (length x) 0) as [X|_]; [destruct x; [contradiction|discriminate]|].
    destruct (pyget _ _); cbn [bind] in CS; [|discriminate]. injection CS as <-. cbn [DataClusters.cur] in *.
    destruct SN as (_ & _ & H3 & _). set (yd := vsub _ _ _) in *. pose proof (Permutation_length (proj1 (H3 yd))) as PL. rewrite map_length, seq_length in PL.
    assert (0 < length x)%nat by (destruct x; [contradiction|cbn; lia]). lia.
  - intros st Hs. destruct (ST2 st Hs) as (ranges & W & NT & F). exists ranges. split; [exact W|]. split; [exact NT|].
    clear - F. induction F as [|r c' rs st (A1 & A2 & A3 & A4 & A5 & _) F IH]; constructor; [|exact IH]. rewrite A3, A5. auto.
  - clear - U. rewrite U. destruct (loop_steps _ _ _ _ _ _ _ _ _) as [|a b]; [reflexivity|]. rewrite !last_cons. reflexivity.
  - destruct M0 as (M1 & M2 & M3 & M4 & M5 & M6 & M7). cbn [fst snd adat] in *.
    destruct (add_frame T bl SN _ _ _ R7) as (F1 & F2 & F3 & F4 & F5 & F6 & F7 & F8). rewrite F1, F2, F3, M3. cbn [adat].
    assert (c_start c0' = 0%nat) by lia. assert (c_stop c0' = length x) by lia.
    do 6 (split; [solve [auto]|]). split; [exact F8|]. split; [|exact R9]. intros lab ES. exact (R8 lab (proj1 (proj2 SN)) ES).
Qed.

(** What a search leaves in the tracer: counters at 0, and the traces of the search that pass
    the filter added to the memory, numbered from 0. *)
Theorem C219_search_tracer :
  forall fuel depth x y e ip c pass (s : tracer (Z * Z * list cluster)),
    t_call s = 0 -> extract T bl cres em pf fuel depth x y e ip = Some (Ok c) ->
    let l := extract_log T bl cres em pf fuel depth x y e ip in
    events s (map (ev pass) l) =
    mkTr 0 (Z.of_nat (length (numbered pass 0 (traces 0 l)))) 0 (t_trace s ++ numbered pass 0 (traces 0 l)).
Proof.
  intros fuel depth x y e ip c pass s S E l. unfold l. destruct fuel as [|fuel]; [discriminate|]. cbn [extract extract_log] in *.
  match type of E with run _ _ _ _ _ ?r _ _ _ _ _ _ = _ => set (rec := r) in * end.
  match goal with |- context[run_log _ _ _ _ _ _ ?r _ _ _ _ _ _] => set (lrec := r) end.
  assert (REC : (depth < 3)%nat -> forall rx ry re r, rec rx ry re = Some (Ok r) -> deep (Z.of_nat (3 - depth)) (lrec rx ry re)).
  { unfold rec, lrec. intros D rx ry re r H. destruct rx as [|r0 rx]; [discriminate|]. eapply deep_weaken; [|eapply extract_deep, H]. lia. }
  destruct (run_traced rec lrec depth _ _ _ _ REC _ _ E) as (? & ? & ? & ? & ? & ? & ? & ? & l0 & _ & _ & _ & -> & N & _).
  rewrite outermost; [reflexivity|exact S| | |].
  - intros p q E'. destruct p as [|a p]; [cbn; lia|]. injection E' as <- E'. cbn [calls]. eapply inner_calls; [exact N| |exact E'].
    intros a' [<-|[<-|[]]]; discriminate.
  - destruct N as (N1 & _). cbn [calls]. rewrite calls_app. cbn [calls]. lia.
  - destruct N as (_ & N2 & _). cbn [level]. rewrite level_app. cbn [level]. lia.
Qed.
End Search.

(** PDFPeakExtraction.extract *)
Section Pdf.
Context {P B Q : Type}.
Variable T : xtools P B Q.
Notation w := (t_w T).
Notation cluster := (cluster P B).
Variable enc : R -> Z.
Variable owner : P -> nat.
Variable static : P -> bool.
Variable set_owner : P -> nat -> P.
Variable ripples : nat -> bool.
Variable tfunc : nat -> nat.

(** single models, all at the level the log starts with *)
Definition singles (l : list (lev cluster)) : Prop :=
  nested 0 l /\ forall n t, In t (traces n l) -> fst t = n /\ exists c, snd t = [c].
Lemma singles_nil : singles [].
Proof. split; [apply nested_nil; lia|intros n t []]. Qed.
Lemma singles_app a b : singles a -> singles b -> singles (a ++ b).
Proof.
  intros (A1 & A2) (B1 & B2). split; [now apply nested_app|]. intros n t H. rewrite traces_app in H. destruct A1 as (_ & L & _). rewrite L, Z.add_0_r in H.
  apply in_app_or in H as [H|H]; auto.
Qed.
Lemma prune_singles fuel (c : cluster) m u : prune w (t_qk T) (t_qargmax T) fuel c = Some (m, Ok u) -> singles (prune_log T fuel c).
Proof.
  intros E. destruct (prune_traced (L0 := unit) T _ _ _ _ E) as (N & ms & TR & _). split; [exact N|]. intros n t H. rewrite TR in H.
  apply in_map_iff in H as (m' & <- & _). split; [reflexivity|]. eexists. reflexivity.
Qed.
Lemma nyquist_singles s base sp drn : forall fuel c used r,
  Nyquist.nyquist_loop w (t_qk T) (t_qargmax T) (PdfExtract.resampled_arrays enc s) base (PdfExtract.p_em s) (PdfExtract.p_pf s) sp drn fuel c used = Some (Ok r) ->
  singles (nyquist_log T enc s base sp drn fuel c).
Proof.
  induction fuel as [|fuel IH]; intros c used r E; [apply singles_nil|]. cbn [Nyquist.nyquist_loop nyquist_log] in *.
  destruct (Nyquist.round _ _ _ _ _ _ _ _ _) as [[c'|]|] eqn:RD; [|discriminate|discriminate].
  unfold Nyquist.round in RD. cbv zeta in RD. destruct (PdfExtract.resampled_arrays enc s _) as [[[r2 y2] e2]|]; [|discriminate].
  destruct (make_cluster _ _ _ _ _ _ _ _ _) as [c1|]; [|discriminate]. cbv zeta. destruct (fr_out _) as [o|]; [|discriminate].
  destruct (prune _ _ _ _ _) as [[m [u|]]|] eqn:PR; [|discriminate|discriminate].
  apply singles_app; [eapply prune_singles, PR|]. destruct (Req_EM_T _ _); [apply singles_nil|]. destruct (_ =? _)%nat; [apply singles_nil|]. eapply IH, E.
Qed.
Lemma ripples_singles fuel s g drn c c1 :
  PdfExtract.with_ripples T enc owner static set_owner ripples tfunc fuel s g drn c = Some (Ok c1) ->
  singles (ripples_log T enc owner static set_owner ripples tfunc fuel s g drn c).
Proof.
  intros E. unfold PdfExtract.with_ripples, ripples_log in *. destruct g as [[r1 y1] e1]. apply obind_ok in E as (m & E1 & E). apply lift_ok in E1. rewrite E1. cbv zeta in E.
  destruct (PdfExtract.d_nyquist (PdfExtract.p_data s)).
  - apply obind_ok in E as (sp & E2 & E). apply lift_ok in E2. rewrite E2. apply obind_ok in E as (t & E3 & _). eapply nyquist_singles, E3.
  - apply obind_ok in E as (c2 & E2 & E). apply lift_ok in E2. change (c_model (set_model c m)) with m in E2. rewrite E2.
    destruct (prune _ _ _ _ _) as [[m2 [u|]]|] eqn:PR; [|discriminate|discriminate]. eapply prune_singles, PR.
Qed.

(** A successful extract(): the traces of the search, at levels 1 to 3, then those of the
    prunings of the model with termination ripples, each a single model at level 0, and
    last of all the extracted model itself, at level 0. *)
Theorem C219_extract :
  forall fuel s c,
    PdfExtract.model_of T enc owner static set_owner ripples tfunc fuel s = Some (Ok c) ->
    let l := pdf_log T enc owner static set_owner ripples tfunc fuel s in
    nested 3 l /\
    exists search rippled, traces 0 l = search ++ rippled ++ [(0, [c])] /\
      (forall t, In t search -> 1 <= fst t <= 3) /\
      (forall t, In t rippled -> fst t = 0 /\ exists c', snd t = [c']) /\
      ((PdfExtract.d_qmax (PdfExtract.p_data s) <= 0)%R -> rippled = []).
Proof.
  intros fuel s c E l.
  assert (SH : exists a b, l = LPushC :: (a ++ b ++ [LEmit [c]]) ++ [LPopC] /\ deep 3 a /\ singles b /\
    ((PdfExtract.d_qmax (PdfExtract.p_data s) <= 0)%R -> b = [])).
  { unfold l, PdfExtract.model_of, pdf_log in *. apply obind_ok in E as (raw & E1 & E). apply lift_ok in E1. apply obind_ok in E as (g & E2 & E). apply lift_ok in E2.
    destruct g as [[r1 y1] e1]. apply obind_ok in E as (c0 & E3 & E). apply obind_ok in E as (c1 & E4 & E). cbv zeta in E. rewrite E1, E2, E3. cbv zeta.
    set (f := fit w c1 false 0 true true) in E. assert (fr_c f = c) by (destruct (fr_out f); [now injection E|discriminate]).
    assert (A : deep 3 (extract_log T (PdfExtract.p_bl s) (PdfExtract.p_cres s) (PdfExtract.p_em s) (PdfExtract.p_pf s) 4 1 (map enc r1) (map enc y1) (map enc e1) (PdfExtract.p_ip s))).
    { eapply deep_weaken; [|eapply (extract_deep (L0 := unit)), E3]. cbn. lia. }
    rewrite E4. fold f. rewrite H. clear l. set (a := extract_log _ _ _ _ _ _ _ _ _ _ _) in *. match goal with |- context [if ?x then ripples_log ?p ?q ?r ?t ?u ?v ?z ?k ?l ?m ?n ?o else []] => set (b := if x then ripples_log p q r t u v z k l m n o else []) end.
    exists a, b. split; [rewrite <- !app_assoc; reflexivity|]. split; [exact A|]. unfold b. split.
    - destruct (Evaluators.Rltb 0 _); [eapply ripples_singles, E4|apply singles_nil].
    - intros Q0. unfold Evaluators.Rltb. destruct (Rlt_dec _ _) as [Q1|]; [|reflexivity]. exfalso. exact (Rlt_irrefl _ (Rlt_le_trans _ _ _ Q1 Q0)). }
  destruct SH as (a & b & -> & (A1 & A2) & (B1 & B2) & B3). split.
  - apply nested_call. apply nested_app; [exact A1|]. apply nested_app; [eapply nested_weaken; [|exact B1]; lia|apply nested_one; lia].
  - exists (traces 0 a), (traces 0 b). split; [|split; [|split]].
    + cbn [traces]. rewrite traces_app. cbn [traces]. rewrite app_nil_r, !traces_app. destruct A1 as (_ & -> & _), B1 as (_ & -> & _). reflexivity.
    + intros t H. pose proof (A2 0 t H). pose proof (nested_levels _ _ _ _ A1 H). lia.
    + exact (B2 0).
    + intros Q0. now rewrite (B3 Q0).
Qed.
(** What it leaves in the tracer: whatever was in its memory, then the traces that passed the
    filter, numbered from 0; the next extraction starts from the counters of a new tracer. *)
Theorem C219_extract_tracer :
  forall fuel s c pass (t : tracer (Z * Z * list cluster)),
    t_call t = 0 -> PdfExtract.model_of T enc owner static set_owner ripples tfunc fuel s = Some (Ok c) ->
    let l := pdf_log T enc owner static set_owner ripples tfunc fuel s in
    events t (map (ev pass) l) =
    mkTr 0 (Z.of_nat (length (numbered pass 0 (traces 0 l)))) 0 (t_trace t ++ numbered pass 0 (traces 0 l)).
Proof.
  intros fuel s c pass t S E l. destruct (C219_extract fuel s c E) as (N & _). fold l in N.
  assert (exists l0, l = LPushC :: l0 ++ [LPopC] /\ nested 3 l0) as (l0 & EL & N0).
  { unfold l, PdfExtract.model_of, pdf_log in *. apply obind_ok in E as (raw & E1 & E). apply lift_ok in E1. apply obind_ok in E as (g & E2 & E). apply lift_ok in E2.
    destruct g as [[r1 y1] e1]. apply obind_ok in E as (c0 & E3 & E). apply obind_ok in E as (c1 & E4 & E). rewrite E1, E2, E3 in *. cbv zeta in *. rewrite E4 in *.
    set (a := extract_log _ _ _ _ _ _ _ _ _ _ _) in *. match goal with |- context [if ?x then ripples_log ?p ?q ?r ?t ?u ?v ?z ?k ?l ?m ?n ?o else []] => set (b := if x then ripples_log p q r t u v z k l m n o else []) in * end.
    exists (a ++ b ++ [LEmit [fr_c (fit w c1 false 0 true true)]]). rewrite <- !app_assoc. split; [reflexivity|].
    apply nested_app; [eapply (nested_weaken 3); [lia|]; unfold a; apply (extract_deep (L0 := unit) T _ _ _ _ 4 1 _ _ _ _ _ E3)|].
    apply nested_app; [|apply nested_one; lia]. unfold b in *. destruct (Evaluators.Rltb 0 _); [|apply nested_nil; lia].
    eapply nested_weaken; [|eapply ripples_singles, E4]. lia. }
  rewrite EL. rewrite outermost; [reflexivity|exact S| | |].
  - eapply inner_calls; [exact N0|]. intros x [<-|[]]; discriminate.
  - destruct N0 as (N1 & _). rewrite calls_app. cbn [calls]. lia.
  - destruct N0 as (_ & N2 & _). rewrite level_app. cbn [level]. lia.
Qed.
End Pdf.

(** ** The hypotheses are satisfiable and the conclusions are not trivial *)
(** levels, and the ranges and numbers of peaks of the clusters *)
Definition shape (l : list (lev (cluster xpeak Z))) : list (Z * list (nat * nat * nat)) :=
  map (fun t => (fst t, map (fun c => (c_start c, c_stop c, length (c_model c))) (snd t))) (traces 0 l).
(** The extraction of C69_nonvacuous: 47 traces, on three levels; its own are eight steps, all
    but the last with two clusters, and one pruning. *)
Example C219_nonvacuous :
  let l := extract_log vtools 0 2 0 [7%nat] 3 1 vx vy ve [xp 5 3 false; xp 9 1 true] in
  (exists c, extract vtools 0 2 0 [7%nat] 3 1 vx vy ve [xp 5 3 false; xp 9 1 true] = Some (Ok c)) /\
  length (shape l) = 47%nat /\
  map snd (filter (fun t => fst t =? 1) (shape l)) =
  [[(3, 4, 0); (7, 8, 0)]; [(3, 4, 0); (6, 8, 0)]; [(2, 4, 0); (6, 8, 0)];
   [(0, 4, 3); (6, 8, 0)]; [(0, 4, 3); (6, 9, 1)]; [(0, 5, 3); (6, 9, 1)];
   [(0, 5, 3); (6, 10, 4)]; [(0, 10, 11)]; [(0, 10, 12)]]%nat /\
  existsb (fun t => fst t =? 3) (shape l) = true.
Proof. split; [eexists; vm_compute; reflexivity|]. split; [vm_compute; reflexivity|]. split; vm_compute; reflexivity. Qed.
(** extract() with termination ripples, on the example of C118 *)
Lemma extract_model {P B Q} (T : xtools P B Q) enc owner static set_owner ripples tfunc fuel s s' :
  PdfExtract.pdf_extract T enc owner static set_owner ripples tfunc fuel s = (s', Some (Ok tt)) ->
  exists c, PdfExtract.model_of T enc owner static set_owner ripples tfunc fuel (PdfExtract.clearcalc s) = Some (Ok c) /\ PdfExtract.p_extracted s' = Some c.
Proof.
  unfold PdfExtract.pdf_extract. cbv zeta. generalize (PdfExtract.owned T enc owner static set_owner ripples tfunc fuel (PdfExtract.clearcalc s)). intros ow E.
  destruct (PdfExtract.model_of _ _ _ _ _ _ _ _ _) as [[c|]|]; try discriminate. exists c. split; [reflexivity|]. injection E as <-. reflexivity.
Qed.
Example C219_extract_nonvacuous : exists c,
  PdfExtract.model_of PdfExtractProps.rtools Int_part fst (fun _ => false) PdfExtractProps.rset PdfExtractProps.rripples PdfExtractProps.rtfunc
    5 (PdfExtract.clearcalc (PdfExtractProps.rpdf 1 [(8%nat, false)])) = Some (Ok c) /\ c_model c = [(108%nat, false)].
Proof.
  destruct PdfExtractProps.C118_nonvacuous as (_ & _ & _ & _ & _ & _ & _ & s' & E & c & X & M). unfold PdfExtractProps.run_r in E.
  destruct (extract_model _ _ _ _ _ _ _ _ _ _ E) as (c' & E' & X'). exists c'. split; [exact E'|].
  assert (XX : Some c' = Some c) by (rewrite <- X', <- X; reflexivity). injection XX as ->. exact M.
Qed.

Print Assumptions C219_search.
Print Assumptions C219_search_tracer.
Print Assumptions C219_extract.
Print Assumptions C219_extract_tracer.

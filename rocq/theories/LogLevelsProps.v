(** Properties C171-C174: logging levels and live plotting switches. *)
From Coq Require Import String.
From Verif Require Import Prelude LogLevels.
Open Scope Z_scope.

(** Specification: the level a documented value stands for. *)
Inductive documented : lvl -> Z -> Prop :=
| D_debug : documented (LName "debug") 10 | D_info : documented (LName "info") 20 | D_warning : documented (LName "warning") 30
| D_error : documented (LName "error") 40 | D_critical : documented (LName "critical") 50
| D_int n : 0 < n -> documented (LInt n) n.

Lemma documented_ok l n : documented l n -> 0 < n /\ mapped l = LInt n.
Proof. intros []; cbn; split; (lia || reflexivity). Qed.

(** A call of one of the three functions *)
Inductive call := Add (file : string) (opened : bool) (level : lvl) | FileLevel (level : lvl) | Level (level : lvl).
Section Root.
Variable root : Z.
Definition step (s : log) (c : call) : log :=
  fst match c with Add f o l => addfilelog s f o l | FileLevel l => setfilelevel root s l | Level l => setlevel root s l end.
Definition run (cs : list call) : log := fold_left step cs start.
(** The console level last asked for; INFO = 20 at the start. *)
Definition asked (cs : list call) (n : Z) : Prop :=
  (n = 20 /\ forall l, ~ In (Level l) cs) \/
  exists before after l, cs = before ++ Level l :: after /\ documented l n /\ forall l', ~ In (Level l') after.
(** Levels of setlevel and setfilelevel are documented ones; those of addfilelog are arbitrary. *)
Definition good (c : call) : Prop := match c with Add _ _ _ => True | FileLevel l => exists n, documented l n | Level l => exists n, documented l n end.

Definition inv (s : log) : Prop := 0 < g_level s <= g_console s.
Lemma inv_eff s : inv s -> effective root s = g_level s.
Proof. intros [H _]. unfold effective. destruct (Z.eqb_spec (g_level s) 0); [lia|reflexivity]. Qed.
Lemma inv_console s m : inv s -> on_console root s m = (g_console s <=? m).
Proof.
  intros I. unfold on_console. rewrite inv_eff by exact I. destruct I. destruct (Z.leb_spec (g_console s) m); [|apply andb_false_r].
  rewrite andb_true_r. apply Z.leb_le. lia.
Qed.
Lemma lower_inv s l n : 0 < g_level s -> 0 < n -> documented l n -> g_level s <= g_console s \/ g_console s = n ->
  inv (fst (lower root s (mapped l) n)) /\ g_console (fst (lower root s (mapped l) n)) = g_console s /\ g_handlers (fst (lower root s (mapped l) n)) = g_handlers s /\
  g_attached (fst (lower root s (mapped l) n)) = g_attached s /\ g_level (fst (lower root s (mapped l) n)) = Z.min n (g_level s).
Proof.
  intros H0 Hn D HC. apply documented_ok in D as (_ & ->). cbn [lower fst].
  assert (E : effective root s = g_level s) by (unfold effective; destruct (Z.eqb_spec (g_level s) 0); [lia|reflexivity]).
  rewrite E. destruct (Z.ltb_spec n (g_level s)); unfold inv; cbn; repeat split; lia.
Qed.
Lemma step_level s l n : inv s -> documented l n -> inv (step s (Level l)) /\ g_console (step s (Level l)) = n /\ g_handlers (step s (Level l)) = g_handlers s /\
  g_attached (step s (Level l)) = g_attached s /\ g_level (step s (Level l)) <= g_level s.
Proof.
  intros I D. pose proof (documented_ok l n D) as (P & M).
  assert (SE : setlevel root s l = lower root (mkLog (g_level s) n (g_handlers s) (g_attached s) (g_fh s)) (mapped l) n) by (unfold setlevel; rewrite M; reflexivity).
  unfold step. rewrite SE.
  destruct I. edestruct (lower_inv (mkLog (g_level s) n (g_handlers s) (g_attached s) (g_fh s)) l n) as (A & B & C & F & G); [exact H|exact P|exact D|now right|].
  cbn [g_level g_console g_handlers g_attached] in *. repeat split; [apply A|apply A|exact B|exact C|exact F|]. rewrite G. lia.
Qed.
Lemma step_file s l n : inv s -> documented l n -> inv (step s (FileLevel l)) /\ g_console (step s (FileLevel l)) = g_console s.
Proof.
  intros I D. unfold step. destruct (g_fh s) as [k|] eqn:FH; [|unfold setfilelevel; rewrite FH; split; [exact I|reflexivity]].
  pose proof (documented_ok l n D) as (P & M).
  assert (SE : setfilelevel root s l = lower root (mkLog (g_level s) (g_console s) (set_handler (g_handlers s) k n) (g_attached s) (Some k)) (mapped l) n) by (unfold setfilelevel; rewrite FH, M; reflexivity).
  rewrite SE.
  destruct I. edestruct (lower_inv (mkLog (g_level s) (g_console s) (set_handler (g_handlers s) k n) (g_attached s) (Some k)) l n) as (A & B & _); [exact H|exact P|exact D|now left|].
  split; [exact A|exact B].
Qed.
Lemma step_add s f o l : inv s -> inv (step s (Add f o l)) /\ g_console (step s (Add f o l)) = g_console s.
Proof. intros I. unfold step, addfilelog. destruct o; cbn [negb]; [|split; [exact I|reflexivity]]. destruct (check_level l); split; try reflexivity; exact I. Qed.
Lemma run_snoc cs c : run (cs ++ [c]) = step (run cs) c.
Proof. unfold run. apply fold_left_app. Qed.
Lemma asked_other cs c n : (forall l, c <> Level l) -> asked (cs ++ [c]) n -> asked cs n.
Proof.
  intros NC [(E & H)|(b & a & l & E & D & H)].
  - left. split; [exact E|]. intros l Hl. apply (H l). apply in_or_app. now left.
  - right. destruct (exists_last (l := Level l :: a)) as (a' & x & EA); [discriminate|]. rewrite EA, app_assoc in E. apply app_inj_tail in E as (E & <-).
    destruct a' as [|y a']; [injection EA as <- ->; exfalso; now apply (NC l)|]. injection EA as <- ->. exists b, a', l. split; [exact E|]. split; [exact D|]. intros l' Hl. apply (H l'). apply in_or_app. now left.
Qed.
Lemma asked_level cs l n : asked (cs ++ [Level l]) n -> documented l n.
Proof.
  intros [(_ & H)|(b & a & l' & E & D & H)]; [exfalso; apply (H l), in_or_app; right; now left|].
  destruct a as [|y a]; [apply app_inj_tail in E as (_ & E); now injection E as ->|].
  exfalso. destruct (exists_last (l := y :: a)) as (a' & x & EA); [discriminate|]. rewrite EA in E. change (b ++ Level l' :: a' ++ [x]) with (b ++ (Level l' :: a') ++ [x]) in E. rewrite app_assoc in E.
  apply app_inj_tail in E as (_ & <-). apply (H l). rewrite EA. apply in_or_app. right. now left.
Qed.
Lemma documented_fun l n n' : documented l n -> documented l n' -> n = n'.
Proof. intros A B. apply documented_ok in A as (_ & A). apply documented_ok in B as (_ & B). congruence. Qed.
Lemma run_inv cs : Forall good cs -> inv (run cs) /\ forall n, asked cs n -> g_console (run cs) = n.
Proof.
  induction cs as [|c cs IH] using rev_ind; intros G.
  - split; [unfold inv; cbn; lia|]. intros n [(-> & _)|(b & a & l & E & _)]; [reflexivity|]. destruct b; discriminate.
  - apply Forall_app in G as (G & GC). inversion GC as [|? ? GC1 _]; subst. destruct (IH G) as (I & C). rewrite run_snoc. destruct c as [f o l|l|l].
    + destruct (step_add (run cs) f o l I) as (I' & E). split; [exact I'|]. intros n A. rewrite E. apply C, (asked_other cs (Add f o l)); [discriminate|exact A].
    + destruct GC1 as (n0 & D). destruct (step_file (run cs) l n0 I D) as (I' & E). split; [exact I'|]. intros n A. rewrite E. apply C, (asked_other cs (FileLevel l)); [discriminate|exact A].
    + destruct GC1 as (n0 & D). destruct (step_level (run cs) l n0 I D) as (I' & E & _). split; [exact I'|]. intros n A. rewrite E. apply asked_level in A. exact (documented_fun l n0 n D A).
Qed.

(** ** C171 *)
(** After any history of calls, the console shows exactly the messages of at least the level
    last asked for with setlevel: opening log files or changing their level does not matter. *)
Theorem C171_console :
  forall cs n m, Forall good cs -> asked cs n -> (on_console root (run cs) m = true <-> n <= m).
Proof.
  intros cs n m G A. destruct (run_inv cs G) as (I & C). rewrite inv_console by exact I. rewrite (C n A). apply Z.leb_le.
Qed.

Lemma combine_snoc {A B} (l : list A) : forall (l' : list B) a b, List.length l = List.length l' -> combine (l ++ [a]) (l' ++ [b]) = combine l l' ++ [(a, b)].
Proof. induction l as [|x l IH]; intros [|y l'] a b H; try discriminate; [reflexivity|]. cbn [app combine]. f_equal. apply IH. cbn in H. lia. Qed.
Lemma set_handler_app hs f n0 n : set_handler (hs ++ [(f, n0)]) (List.length hs) n = hs ++ [(f, n)].
Proof.
  unfold set_handler. rewrite app_length. cbn [List.length]. rewrite Nat.add_1_r, seq_S, combine_snoc by now rewrite seq_length.
  rewrite map_app. cbn [map fst snd]. rewrite Nat.add_0_l, Nat.eqb_refl. f_equal.
  assert (G : forall (l : list (string * Z)) k K, (k + List.length l <= K)%nat -> map (fun ih : nat * (string * Z) => if (fst ih =? K)%nat then (fst (snd ih), n) else snd ih) (combine (seq k (List.length l)) l) = l).
  { induction l as [|a l IH]; intros k K H; [reflexivity|]. cbn [List.length seq combine map fst snd] in *. destruct (Nat.eqb_spec k K); [lia|]. f_equal. apply IH. lia. }
  apply G. lia.
Qed.
(** Handlers that are attached exist and none is attached twice; [f] is not among the files before. *)
Definition files_of (cs : list call) (f : string) : Prop := exists o l, In (Add f o l) cs.
Definition wf (s : log) : Prop := (forall k, In k (g_attached s) -> (k < List.length (g_handlers s))%nat).
Lemma set_handler_names hs k n : map fst (set_handler hs k n) = map fst hs.
Proof.
  unfold set_handler. generalize 0%nat. induction hs as [|a hs IH]; intros j; [reflexivity|]. cbn [List.length seq combine map fst snd]. f_equal; [destruct (_ =? _)%nat; reflexivity|apply IH].
Qed.
Lemma step_names s c : wf s -> wf (step s c) /\ forall f, In f (map fst (g_handlers (step s c))) -> In f (map fst (g_handlers s)) \/ exists o l, c = Add f o l.
Proof.
  intros W. destruct c as [f o l|l|l]; unfold step.
  - unfold addfilelog. destruct o; cbn [negb fst]; [|split; [exact W|auto]].
    assert (N : forall n, In n (map fst (g_handlers s ++ [(f, 0)])) -> In n (map fst (g_handlers s)) \/ exists o' l', Add f true l = Add n o' l').
    { intros n. rewrite map_app. intros H. apply in_app_or in H as [H|[<-|[]]]; [now left|right; now exists true, l]. }
    destruct (check_level l) as [n|e]; cbn [fst].
    + split.
      * unfold wf; cbn. intros k Hk. rewrite app_length. cbn. apply in_app_or in Hk as [Hk|[<-|[]]]; [specialize (W k Hk); lia|lia].
      * cbn [g_handlers]. intros g. rewrite map_app. intros H. apply in_app_or in H as [H|[<-|[]]]; [now left|right; now exists true, l].
    + split; [unfold wf; cbn; intros k Hk; rewrite app_length; specialize (W k Hk); cbn; lia|exact N].
  - unfold setfilelevel. destruct (g_fh s) as [k|]; cbn [fst]; [|split; [exact W|auto]]. destruct (check_level (mapped l)) as [n|e]; cbn [fst]; [|split; [exact W|auto]].
    assert (E : List.length (set_handler (g_handlers s) k n) = List.length (g_handlers s)) by (rewrite <- (map_length fst), set_handler_names; apply map_length).
    unfold lower. destruct (mapped l); [destruct (_ <? _)| |]; unfold wf; cbn [fst g_attached g_handlers]; rewrite E, set_handler_names; split; auto; exact W.
  - unfold setlevel. destruct (check_level (mapped l)) as [n|e]; cbn [fst]; [|split; [exact W|auto]].
    unfold lower. destruct (mapped l); [destruct (_ <? _)| |]; unfold wf; cbn [fst g_attached g_handlers]; split; auto; exact W.
Qed.
Lemma run_names cs : wf (run cs) /\ forall f, In f (map fst (g_handlers (run cs))) -> files_of cs f.
Proof.
  induction cs as [|c cs IH] using rev_ind; [split; [intros k []|intros f []]|]. destruct IH as (W & N). rewrite run_snoc. destruct (step_names (run cs) c W) as (W' & N'). split; [exact W'|].
  intros f H. destruct (N' f H) as [H1|(o & l & ->)]; [destruct (N f H1) as (o & l & Hin); exists o, l; apply in_or_app; now left|]. exists o, l. apply in_or_app. right. now left.
Qed.

(** A log file opened with addfilelog, whose level is set with setfilelevel, receives exactly
    the messages of at least that level, whatever happened before and whatever is done to the
    console afterwards. *)
Theorem C171_file :
  forall before after f l0 n0 l n m,
    Forall good before -> ~ files_of before f -> check_level l0 = Ok n0 -> documented l n ->
    Forall (fun c => exists l' n', c = Level l' /\ documented l' n') after ->
    (In f (in_files root (run (before ++ [Add f true l0; FileLevel l] ++ after)) m) <-> n <= m).
Proof.
  intros before after f l0 n0 l n m G NF C0 D GA. destruct (run_names before) as (W & N). destruct (run_inv before G) as (I & _).
  assert (X : let s := run (before ++ [Add f true l0; FileLevel l]) in inv s /\ wf s /\ g_level s <= n /\ g_handlers s = g_handlers (run before) ++ [(f, n)] /\ g_attached s = g_attached (run before) ++ [List.length (g_handlers (run before))]).
  { replace (before ++ [Add f true l0; FileLevel l]) with ((before ++ [Add f true l0]) ++ [FileLevel l]) by now rewrite <- app_assoc. rewrite !run_snoc. set (s0 := run before) in *. cbv zeta.
    assert (S1 : step s0 (Add f true l0) = mkLog (g_level s0) (g_console s0) (g_handlers s0 ++ [(f, n0)]) (g_attached s0 ++ [List.length (g_handlers s0)]) (Some (List.length (g_handlers s0)))) by (unfold step, addfilelog; cbn [negb]; rewrite C0; reflexivity).
    destruct (step_names s0 (Add f true l0) W) as (W1 & _). destruct (step_names _ (FileLevel l) W1) as (W2 & _).
    destruct (step_add s0 f true l0 I) as (I1 & _). destruct (step_file _ l n I1 D) as (I2 & _).
    split; [exact I2|]. split; [exact W2|]. rewrite S1. pose proof (documented_ok l n D) as (P & M).
    set (s1 := mkLog (g_level s0) (g_console s0) (g_handlers s0 ++ [(f, n0)]) (g_attached s0 ++ [List.length (g_handlers s0)]) (Some (List.length (g_handlers s0)))) in *.
    assert (SE : setfilelevel root s1 l = lower root (mkLog (g_level s0) (g_console s0) (g_handlers s0 ++ [(f, n)]) (g_attached s1) (g_fh s1)) (mapped l) n).
    { unfold setfilelevel. cbn [s1 g_fh]. rewrite M. cbn [check_level]. cbn [s1 g_handlers]. rewrite set_handler_app. reflexivity. }
    unfold step. rewrite SE. destruct I.
    edestruct (lower_inv (mkLog (g_level s0) (g_console s0) (g_handlers s0 ++ [(f, n)]) (g_attached s1) (g_fh s1)) l n) as (A & B & C & E & F); [exact H|exact P|exact D|now left|].
    rewrite C, E, F. cbn [g_handlers g_attached g_level s1]. split; [lia|]. split; reflexivity. }
  cbv zeta in X. rewrite app_assoc. set (cs := before ++ [Add f true l0; FileLevel l]) in *. clearbody cs. rename N into NN.
  assert (Y : inv (run (cs ++ after)) /\ g_level (run (cs ++ after)) <= n /\ g_handlers (run (cs ++ after)) = g_handlers (run cs) /\ g_attached (run (cs ++ after)) = g_attached (run cs)).
  { induction after as [|c after IH] using rev_ind; [rewrite app_nil_r; destruct X as (X1 & _ & X2 & _); auto|].
    apply Forall_app in GA as (GA & GC). inversion GC as [|? ? (l' & n' & -> & D') _]; subst. destruct (IH GA) as (Y1 & Y2 & Y3 & Y4). rewrite app_assoc, run_snoc.
    destruct (step_level (run (cs ++ after)) l' n' Y1 D') as (Z1 & _ & Z2 & Z3 & Z4). split; [exact Z1|]. split; [lia|]. now rewrite Z2, Z3. }
  destruct X as (_ & _ & _ & X3 & X4). destruct Y as (Y1 & Y2 & Y3 & Y4). rewrite X3 in Y3. rewrite X4 in Y4.
  set (s := run (cs ++ after)) in *. clearbody s. set (s0 := run before) in *.
  unfold in_files. rewrite Y4, flat_map_app, in_app_iff. cbn [flat_map]. rewrite app_nil_r, Y3, nth_error_app2, Nat.sub_diag by lia. cbn [nth_error].
  rewrite inv_eff by exact Y1. split.
  - intros [H|H].
    + exfalso. apply in_flat_map in H as (k & Hk & H). rewrite nth_error_app1 in H by now apply W. destruct (nth_error (g_handlers s0) k) as [[g z]|] eqn:E; [|destruct H].
      destruct (_ && _); [|destruct H]. destruct H as [->|[]]. apply NF, NN. apply in_map_iff. exists (f, z). split; [reflexivity|]. exact (nth_error_In _ _ E).
    + destruct (g_level s <=? m); [|destruct H]. destruct (Z.leb_spec n m); [assumption|destruct H].
  - intros H. right. rewrite (proj2 (Z.leb_le (g_level s) m)) by lia. rewrite (proj2 (Z.leb_le n m) H). now left.
Qed.
End Root.
Example C171_nonvacuous :
  let cs := [Add "a.log" true (LInt 20); Level (LName "error"); FileLevel (LName "debug"); Add "b.log" false (LName "debug")]%string in
  Forall good cs /\ asked cs 40 /\ on_console 30 (run 30 cs) 30 = false /\ on_console 30 (run 30 cs) 40 = true /\ in_files 30 (run 30 cs) 10 = ["a.log"%string].
Proof.
  cbv zeta. split; [repeat constructor; [exists 40|exists 10]; constructor|]. split; [|repeat split].
  right. exists [Add "a.log" true (LInt 20)]%string, [FileLevel (LName "debug"); Add "b.log" false (LName "debug")]%string, (LName "error"). split; [reflexivity|]. split; [constructor|].
  intros l' [H|[H|[]]]; discriminate.
Qed.

(** ** C172: the level given to addfilelog *)
(** Violated: a log file opened with a level below the logger's does not receive the messages
    of that level (the logger is lowered by setfilelevel, but not by addfilelog). *)
Theorem C172_addfilelog_level_refuted :
  forall root f n m, 0 < n -> n <= m < 20 -> snd (addfilelog start f true (LInt n)) = Ok tt /\ in_files root (fst (addfilelog start f true (LInt n))) m = [].
Proof. intros root f n m Hn Hm. split; [reflexivity|]. cbn. rewrite (proj2 (Z.leb_gt 20 m)) by lia. reflexivity. Qed.
(** Violated: the names setlevel and setfilelevel accept are rejected, and afterwards
    setfilelevel succeeds although no message reaches any file. *)
Theorem C172_addfilelog_names_refuted :
  forall root f name level, documented (LName name) level ->
    let (s, r) := addfilelog start f true (LName name) in
    r = Err ValueError /\ snd (setfilelevel root s (LName name)) = Ok tt /\ forall m, in_files root (fst (setfilelevel root s (LName name))) m = [].
Proof.
  intros root f name level D. assert (A : addfilelog start f true (LName name) = (mkLog 20 20 [(f, 0)] [] (Some 0%nat), Err ValueError)) by (inversion D; subst; reflexivity).
  rewrite A. split; [reflexivity|]. apply documented_ok in D as (P & M).
  assert (SE : setfilelevel root (mkLog 20 20 [(f, 0)] [] (Some 0%nat)) (LName name) = lower root (mkLog 20 20 [(f, level)] [] (Some 0%nat)) (LInt level) level) by (unfold setfilelevel; cbn [g_fh]; rewrite M; reflexivity).
  rewrite SE. cbn [lower snd fst]. split; [reflexivity|]. intros m. destruct (_ <? _); reflexivity.
Qed.

(** ** C173: other levels *)
(** Violated: setlevel(logging.NOTSET) hides messages shown before (the root logger's level, by
    default WARNING, takes over). *)
Theorem C173_notset_refuted :
  forall root m, 20 <= m < root -> on_console root start m = true /\ snd (setlevel root start (LInt 0)) = Ok tt /\ on_console root (fst (setlevel root start (LInt 0))) m = false.
Proof.
  intros root m H. split; [|split; [reflexivity|]].
  - unfold on_console. cbn. rewrite (proj2 (Z.leb_le 20 m)) by lia. reflexivity.
  - unfold on_console. cbn. rewrite (proj2 (Z.leb_gt root m)) by lia. reflexivity.
Qed.
(** Violated: the names Python's logging uses raise TypeError, but the console's level has been
    changed then. *)
Theorem C173_rejected_level_refuted :
  forall root name n, In (name, n) [("CRITICAL", 50); ("ERROR", 40); ("WARNING", 30)]%string ->
    snd (setlevel root start (LName name)) = Err TypeError /\ on_console root start 20 = true /\ on_console root (fst (setlevel root start (LName name))) 20 = false.
Proof. intros root name n [H|[H|[H|[]]]]; injection H as <- <-; repeat split. Qed.
(** Any other text or object is rejected without effect. *)
Theorem C173_bad_level :
  forall root s level e, check_level (mapped level) = Err e -> setlevel root s level = (s, Err e) /\ (g_fh s <> None -> setfilelevel root s level = (s, Err e)).
Proof.
  intros root s level e H. unfold setlevel, setfilelevel. rewrite H. split; [reflexivity|]. destruct (g_fh s); [reflexivity|contradiction].
Qed.
Theorem C173_no_file : forall root s level, g_fh s = None -> setfilelevel root s level = (s, Err GenericException).
Proof. intros root s level H. unfold setfilelevel. now rewrite H. Qed.
(** A file that cannot be opened changes nothing: messages go where they went before. *)
Theorem C173_unopened_file :
  forall root s f level m, snd (addfilelog s f false level) = Err FileError /\
    (forall l, setfilelevel root (fst (addfilelog s f false level)) l = setfilelevel root s l) /\
    on_console root (fst (addfilelog s f false level)) m = on_console root s m /\ in_files root (fst (addfilelog s f false level)) m = in_files root s m.
Proof. intros root s f level m. repeat split. Qed.

(** ** C174: live plotting *)
Theorem C174_accepted : forall s a b, liveplotting s (SwBool a) (SwBool b) = ((a, b), Ok tt).
Proof. reflexivity. Qed.
Theorem C174_first_rejected : forall s w, liveplotting s SwOther w = (s, Err ValueError).
Proof. reflexivity. Qed.
(** Violated: a call rejected for its second argument has already changed the first setting. *)
Theorem C174_second_rejected_refuted : forall s a, fst s <> a -> snd (liveplotting s (SwBool a) SwOther) = Err ValueError /\ fst (liveplotting s (SwBool a) SwOther) <> s.
Proof. intros [x y] a H. split; [reflexivity|]. cbn in *. congruence. Qed.

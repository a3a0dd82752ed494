From Coq Require Import String Permutation Sorting.
From Verif Require Import Prelude Functions.
Set Default Proof Using "Type".

(** ** constructor *)
Lemma zinsert_perm z l : Permutation (zinsert z l) (z :: l).
Proof.
  induction l as [|a l IH]; cbn; [constructor; constructor|].
  destruct (z <=? a)%Z; [reflexivity|]. rewrite IH. apply perm_swap.
Qed.
Lemma zsort_perm l : Permutation (zsort l) l.
Proof. unfold zsort. induction l; cbn; [constructor|]. rewrite zinsert_perm. now constructor. Qed.
Lemma zinsert_sorted z l : StronglySorted Z.le l -> StronglySorted Z.le (zinsert z l).
Proof.
  induction 1 as [|a l H IH Hf]; cbn; [constructor; constructor|].
  destruct (Z.leb_spec z a).
  - constructor; [constructor; assumption|]. constructor; [assumption|].
    rewrite Forall_forall in *. intros b Hb. specialize (Hf b Hb). lia.
  - constructor; [exact IH|]. rewrite Forall_forall in *. intros b Hb.
    apply (Permutation_in _ (zinsert_perm z l)) in Hb. destruct Hb as [<-|Hb]; [lia|auto].
Qed.
Lemma zsort_sorted l : StronglySorted Z.le (zsort l).
Proof. unfold zsort. induction l; cbn; [constructor|now apply zinsert_sorted]. Qed.

Lemma sorted_perm_eq (a b : list Z) :
  StronglySorted Z.le a -> StronglySorted Z.le b -> Permutation a b -> a = b.
Proof.
  intros Sa. revert b. induction Sa as [|x a Sa IH Ha]; intros b Sb P.
  - apply Permutation_nil in P. now subst.
  - destruct Sb as [|y b Sb Hb]; [symmetry in P; apply Permutation_nil in P; discriminate|].
    assert (E : x = y).
    { rewrite Forall_forall in Ha, Hb.
      assert (H1 : In x (y :: b)) by (eapply Permutation_in; [exact P|now left]).
      assert (H2 : In y (x :: a)) by (eapply Permutation_in; [symmetry; exact P|now left]).
      destruct H1 as [->|H1]; [reflexivity|]. destruct H2 as [->|H2]; [reflexivity|].
      specialize (Ha _ H2). specialize (Hb _ H1). lia. }
    subst y. f_equal. apply IH; auto. eapply Permutation_cons_inv; eauto.
Qed.

Lemma seq_zsorted k n : StronglySorted Z.le (map Z.of_nat (seq k n)).
Proof.
  revert k; induction n as [|n IH]; intros k; cbn; [constructor|]. constructor; [apply IH|].
  rewrite Forall_forall. intros z Hz. apply in_map_iff in Hz. destruct Hz as (i & <- & Hi). apply in_seq in Hi. lia.
Qed.

Lemma zlist_eqb_eq a b : zlist_eqb a b = true <-> a = b.
Proof.
  revert b; induction a as [|x a IH]; intros [|y b]; cbn; split; intros H; try discriminate; try reflexivity.
  - apply andb_true_iff in H. destruct H as [H1 H2]. f_equal; [lia|now apply IH].
  - injection H as -> ->. rewrite Z.eqb_refl. cbn. now apply IH.
Qed.

Lemma zsort_range l n : zlist_eqb (zsort l) (map Z.of_nat (seq 0 n)) = true <-> Permutation l (map Z.of_nat (seq 0 n)).
Proof.
  rewrite zlist_eqb_eq. split.
  - intros E. rewrite <- E. symmetry. apply zsort_perm.
  - intros P. apply sorted_perm_eq; [apply zsort_sorted|apply seq_zsorted|]. rewrite zsort_perm. exact P.
Qed.

(** ** dependency order *)
Section G.
Variable base : nat -> option nat.

(** Reachability through base. *)
Inductive needs : nat -> nat -> Prop :=
| needs_self f : needs f f
| needs_base f g h : base f = Some g -> needs g h -> needs f h.

(** A safe order: no repetition, and every base occurs earlier. *)
Definition safe_order (l : list nat) : Prop :=
  NoDup l /\ forall i f g, nth_error l i = Some f -> base f = Some g ->
    exists j, j < i /\ nth_error l j = Some g.

Lemma mem_In f l : mem f l = true <-> In f l.
Proof.
  unfold mem. rewrite existsb_exists. split.
  - intros (x & H & E). apply Nat.eqb_eq in E. now subst.
  - intros H. exists f. split; [exact H|apply Nat.eqb_refl].
Qed.

Lemma safe_order_closed l f g : safe_order l -> In f l -> base f = Some g -> In g l.
Proof.
  intros [_ S] H E. destruct (In_nth_error _ _ H) as [i Hi]. destruct (S i f g Hi E) as (j & _ & Hj).
  eapply nth_error_In; eauto.
Qed.

Lemma safe_order_needs l f h : safe_order l -> needs f h -> In f l -> In h l.
Proof. intros S N. induction N; intros H1; [exact H1|]. apply IHN. eapply safe_order_closed; eauto. Qed.

Lemma safe_snoc l f :
  safe_order l -> ~ In f l -> (forall g, base f = Some g -> In g l) -> safe_order (l ++ [f]).
Proof.
  intros [ND S] N B. split.
  - apply NoDup_Add with (a := f) (l := l); [|auto].
    rewrite <- (app_nil_r l) at 1. apply Add_app.
  - intros i f' g Hi E. destruct (Nat.lt_ge_cases i (List.length l)) as [Hl|Hl].
    + rewrite nth_error_app1 in Hi by assumption. destruct (S i f' g Hi E) as (j & Hj & Hg).
      exists j. split; [exact Hj|]. rewrite nth_error_app1 by lia. exact Hg.
    + rewrite nth_error_app2 in Hi by assumption. destruct (i - List.length l) as [|k] eqn:Ek; [|destruct k; discriminate].
      injection Hi as <-. destruct (In_nth_error _ _ (B g E)) as [j Hj].
      assert (j < List.length l) by (apply nth_error_Some; congruence). exists j. split; [lia|].
      rewrite nth_error_app1 by assumption. exact Hj.
Qed.

(** Acyclic: some rank decreases along base. *)
Variable rank : nat -> nat.
Hypothesis rank_ok : forall f g, base f = Some g -> rank g < rank f.

Lemma needs_rank f h : needs f h -> rank h <= rank f.
Proof using rank_ok. induction 1; [apply le_n|]. pose proof (rank_ok _ _ H). lia. Qed.

Lemma safefunction_ok depth : forall f l, rank f < depth -> safe_order l ->
  exists m, safefunction base depth f l = Some (l ++ m) /\ safe_order (l ++ m) /\ In f (l ++ m) /\
    (forall x, In x m -> needs f x).
Proof using rank_ok.
  induction depth as [|d IH]; intros f l Hr S; [lia|]. cbn.
  destruct (mem f l) eqn:M.
  { exists []. rewrite app_nil_r. apply mem_In in M. split; [reflexivity|]. split; [exact S|]. split; [exact M|]. cbn; tauto. }
  assert (Nf : ~ In f l) by (intros H; apply mem_In in H; congruence).
  destruct (base f) as [g|] eqn:B.
  - destruct (IH g l) as (m & E & S' & I & N); [pose proof (rank_ok _ _ B); lia|exact S|].
    rewrite E. exists (m ++ [f]). rewrite app_assoc. split; [reflexivity|]. split; [|split].
    + apply safe_snoc; [exact S'| |].
      * intros H. apply in_app_or in H. destruct H as [H|H]; [contradiction|]. specialize (N f H).
        apply needs_rank in N. pose proof (rank_ok _ _ B). lia.
      * intros g' Hg. rewrite B in Hg. injection Hg as <-. exact I.
    + apply in_or_app. right. now left.
    + intros x Hx. apply in_app_or in Hx. destruct Hx as [Hx|[<-|[]]]; [|apply needs_self].
      eapply needs_base; eauto.
  - exists [f]. split; [reflexivity|]. split; [|split].
    + apply safe_snoc; auto. congruence.
    + apply in_or_app. right. now left.
    + intros x [<-|[]]. apply needs_self.
Qed.

Lemma safe_loop_ok depth fs : forall l, (forall f, In f fs -> rank f < depth) -> safe_order l ->
  exists m, safe_loop base depth fs l = Some (l ++ m) /\ safe_order (l ++ m) /\
    (forall f, In f fs -> In f (l ++ m)) /\ (forall x, In x m -> exists f, In f fs /\ needs f x).
Proof using rank_ok.
  induction fs as [|f fs IH]; intros l Hr S; cbn.
  { exists []. rewrite app_nil_r. split; [reflexivity|]. split; [exact S|]. split; cbn; tauto. }
  destruct (safefunction_ok depth f l (Hr f (or_introl eq_refl)) S) as (m & -> & S1 & I1 & N1).
  destruct (IH (l ++ m) (fun g Hg => Hr g (or_intror Hg)) S1) as (m2 & E2 & S2 & I2 & N2).
  exists (m ++ m2). rewrite app_assoc. split; [exact E2|]. split; [exact S2|]. split.
  - intros g [<-|Hg]; [|auto]. apply in_or_app. now left.
  - intros x Hx. apply in_app_or in Hx. destruct Hx as [Hx|Hx].
    + exists f. split; [now left|auto].
    + destruct (N2 x Hx) as (g & Hg & Hn). exists g. split; [now right|exact Hn].
Qed.
End G.

(** A function on a cycle never finishes. *)
Lemma safefunction_cycle base d f l :
  (forall h, needs base f h -> base h <> None /\ ~ In h l) -> safefunction base d f l = None.
Proof.
  revert f. induction d as [|d IH]; intros f H; [reflexivity|]. cbn.
  destruct (H f (needs_self _ f)) as [H1 H2].
  destruct (mem f l) eqn:M; [apply mem_In in M; contradiction|].
  destruct (base f) as [g|] eqn:B; [|contradiction].
  rewrite IH; [reflexivity|]. intros h Hn. apply H. eapply needs_base; eauto.
Qed.

(** ** references survive writing and loading *)
Lemma index_of_spec f l i : NoDup l -> nth_error l i = Some f -> index_of f l = Some i.
Proof.
  intros ND. revert i. induction ND as [|g l Hni ND IH]; intros i Hi; [destruct i; discriminate|].
  destruct i as [|i]; cbn in *.
  - injection Hi as ->. now rewrite Nat.eqb_refl.
  - destruct (Nat.eqb_spec f g) as [->|]; [apply nth_error_In in Hi; contradiction|].
    now rewrite (IH i Hi).
Qed.

Lemma pyget_nat {A} (l : list A) i a : nth_error l i = Some a -> pyget l (Z.of_nat i) = Ok a.
Proof.
  intros H. assert (i < List.length l) by (apply nth_error_Some; congruence).
  unfold pyget. destruct (Z.ltb_spec (Z.of_nat i) 0); [lia|].
  destruct (Z.leb_spec (Z.of_nat (List.length l)) (Z.of_nat i)); [lia|]. cbn. rewrite Nat2Z.id, H.
  destruct (Z.ltb_spec (Z.of_nat i) 0); [lia|]. reflexivity.
Qed.

Lemma write_all_spec base bl l : (forall f g, In f l -> base f = Some g -> In g bl) ->
  exists ws, write_all base bl l = Ok ws /\ List.length ws = List.length l /\
    forall i f, nth_error l i = Some f -> exists w, nth_error ws i = Some w /\ write_base base bl f = Ok w.
Proof.
  induction l as [|f l IH]; intros H; cbn.
  { exists []. split; [reflexivity|]. split; [reflexivity|]. intros []; discriminate. }
  assert (exists w, write_base base bl f = Ok w) as [w Ew].
  { unfold write_base. destruct (base f) as [g|] eqn:B; [|eauto].
    assert (In g bl) by (eapply H; eauto; now left). clear - H0.
    assert (exists i, index_of g bl = Some i) as [i ->]; [|eauto].
    induction bl as [|a bl IH]; [destruct H0|]. cbn. destruct (Nat.eqb_spec g a); [eauto|].
    destruct H0 as [->|H0]; [congruence|]. destruct (IH H0) as [i ->]. cbn. eauto. }
  rewrite Ew. cbn. destruct IH as (ws & -> & Len & P); [intros; eapply H; eauto; now right|]. cbn.
  exists (w :: ws). split; [reflexivity|]. split; [cbn; lia|]. intros [|i] f' Hf; cbn in *; [injection Hf as <-; eauto|auto].
Qed.

Definition pos (l : loaded) := match l with Loaded p _ => p end.
Definition lbase (l : loaded) := match l with Loaded _ b => b end.

(** What loading must produce: same length, positions in order, and base references
    pointing at the loaded counterpart of the original base. *)
Definition mirrors (base : nat -> option nat) (l : list nat) (ls : list loaded) : Prop :=
  List.length ls = List.length l /\
  forall i f, nth_error l i = Some f -> exists x, nth_error ls i = Some x /\ pos x = i /\
    match base f with
    | None => lbase x = None
    | Some g => exists j y, nth_error l j = Some g /\ nth_error ls j = Some y /\ lbase x = Some y
    end.

Lemma load_all_spec base l ws :
  safe_order base l -> List.length ws = List.length l ->
  (forall i f, nth_error l i = Some f -> exists w, nth_error ws i = Some w /\ write_base base l f = Ok w) ->
  exists ls, load_all ws [] = Ok ls /\ mirrors base l ls.
Proof.
  intros [ND S] Len HW.
  assert (G : forall k acc, k = List.length acc -> k <= List.length l -> mirrors base (firstn k l) acc ->
     exists ls, load_all (skipn k ws) acc = Ok ls /\ mirrors base l ls).
  2:{ apply (G 0 []); [reflexivity|lia|]. cbn. split; [reflexivity|]. intros []; discriminate. }
  intros k. remember (List.length l - k) as d eqn:Ed. revert k Ed.
  induction d as [|d IH]; intros k Ed acc Hk Hkl M.
  - rewrite skipn_all2 by lia. exists acc. split; [reflexivity|]. rewrite firstn_all2 in M by lia. exact M.
  - destruct (nth_error l k) as [f|] eqn:Hf; [|apply nth_error_None in Hf; lia].
    destruct (HW k f Hf) as (w & Hw & Ew).
    assert (ES : skipn k ws = w :: skipn (Datatypes.S k) ws).
    { clear - Hw. revert k Hw. induction ws as [|a ws IH]; intros [|k] H; cbn in *; try discriminate.
      - injection H as ->. reflexivity.
      - apply IH. exact H. }
    rewrite ES. cbn [load_all].
    assert (EF : exists x, factory w acc = Ok x /\ pos x = k /\
       match base f with None => lbase x = None
       | Some g => exists j y, j < k /\ nth_error l j = Some g /\ nth_error acc j = Some y /\ lbase x = Some y end).
    { unfold write_base in Ew. destruct (base f) as [g|] eqn:B.
      - destruct (S k f g Hf B) as (j & Hj & Hg). rewrite (index_of_spec _ _ _ ND Hg) in Ew. injection Ew as <-.
        destruct (nth_error acc j) as [y|] eqn:Hy; [|apply nth_error_None in Hy; lia].
        unfold factory, factory_ref. destruct (Z.gtb_spec (Z.of_nat j) (Z.of_nat (List.length acc))); [lia|].
        rewrite (pyget_nat _ _ _ Hy). cbn. eexists. split; [reflexivity|]. split; [cbn; lia|].
        exists j, y. auto.
      - injection Ew as <-. cbn. eexists. split; [reflexivity|]. split; [cbn; lia|reflexivity]. }
    destruct EF as (x & -> & Px & Bx). cbn [bind].
    apply (IH (Datatypes.S k)); [lia| |lia|].
    { rewrite app_length. cbn. lia. }
    destruct M as [M1 M2]. split.
    + rewrite app_length, firstn_length. cbn [List.length]. lia.
    + assert (EN : forall i a, i < k -> (nth_error (firstn k l) i = Some a <-> nth_error l i = Some a)).
      { intros i a Hi. rewrite <- (firstn_skipn k l) at 2. rewrite nth_error_app1; [reflexivity|]. rewrite firstn_length. lia. }
      assert (EN' : forall i a, i < Datatypes.S k -> nth_error l i = Some a -> nth_error (firstn (Datatypes.S k) l) i = Some a).
      { intros i a Hi Ha. rewrite <- Ha. rewrite <- (firstn_skipn (Datatypes.S k) l) at 2. rewrite nth_error_app1; [reflexivity|]. rewrite firstn_length. lia. }
      intros i a Hi.
      assert (Hik : i < Datatypes.S k) by (pose proof (proj1 (nth_error_Some (firstn (Datatypes.S k) l) i) ltac:(congruence)); rewrite firstn_length in *; lia).
      assert (Ha : nth_error l i = Some a).
      { rewrite <- (firstn_skipn (Datatypes.S k) l). rewrite nth_error_app1; [exact Hi|]. rewrite firstn_length. lia. }
      destruct (Nat.eq_dec i k) as [->|Nk].
      * rewrite Hf in Ha. injection Ha as <-. exists x. rewrite nth_error_app2 by lia. rewrite <- Hk, Nat.sub_diag.
        split; [reflexivity|]. split; [exact Px|]. destruct (base f) as [g|]; [|exact Bx].
        destruct Bx as (j & y & Hj & Hg & Hy & Hb). exists j, y. split; [apply EN'; [lia|exact Hg]|]. split; [|exact Hb].
        rewrite nth_error_app1 by lia. exact Hy.
      * destruct (M2 i a) as (z & Hz & Pz & Bz); [apply EN; [lia|exact Ha]|].
        exists z. rewrite nth_error_app1 by lia. split; [exact Hz|]. split; [exact Pz|].
        destruct (base a) as [g|]; [|exact Bz]. destruct Bz as (j & y & Hg & Hy & Hb).
        assert (j < k) by (pose proof (proj1 (nth_error_Some acc j) ltac:(congruence)); lia).
        exists j, y. split; [apply EN'; [lia|]; apply EN; assumption|]. split; [|exact Hb].
        rewrite nth_error_app1 by lia. exact Hy.
Qed.

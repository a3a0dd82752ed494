(** Property C206: the baseline of an extracted model. *)
From Coq Require Import Permutation Sorted.
From Verif Require Import Prelude ModelCluster ModelClusterProofs ModelClusterProps Prune PruneProofs PruneProps AugmentProps Extract ExtractProofs ExtractProps.
From Verif Require DataClusters DataClustersSpec DataClustersAdj DataClustersProofs DataClustersMore DataClustersProps.
From Verif Require ExtractTotalProps.
Open Scope Z_scope.

Section Base.
Context {P B Q : Type}.
Variable T : xtools P B Q.
Notation w := (t_w T).
Notation cluster := (cluster P B).
Variables (bl : B) (cres : Z) (em : nat) (pf : list nat).

(** What a fit does to the baseline. *)
Lemma fit_base_cases c justify nt fb est b : c_base c = Some b ->
  c_base (fr_c (fit w c justify nt fb est)) = Some b \/
  (fb = true /\ (0 < w_b_npars w false b)%nat /\ exists m cc ps ob, w_engine w m (Some b) cc nt = ((ps, ob), Ok tt) /\ c_base (fr_c (fit w c justify nt fb est)) = ob) \/
  (exists e, fr_out (fit w c justify nt fb est) = Err e).
Proof.
  intros HB.
  assert (EST : forall c1 o, estimatepeak w c = (c1, o) -> c_base c1 = Some b).
  { intros c1 o E. unfold estimatepeak in E. destruct (c_pf c); [now injection E as <- _|]. destruct (w_estimate w c) as [[p|]|]; try (now injection E as <- _).
    destruct (replacepeaks w (c_model c) [p] (Some 0%Z) (Some 0%Z)) as [m [u|x]]; injection E as <- _; exact HB. }
  unfold fit. destruct (c_never c); [left; exact HB|].
  assert (GO : forall c1, c_base c1 = Some b ->
    let f :=
    let orig_qual := w_quality w c1 in
    let c2 := set_last c1 (c_size c1) in
    let fb := fb && match c_base c2 with None => false | Some b => (0 <? w_b_npars w false b)%nat end in
    match w_engine w (c_model c2) (if fb then c_base c2 else None) c2 nt with
    | ((ps, ob), out) =>
      let bl' := if fb then ob else c_base c2 in
      match out with
      | Err FitError => mkFitRes c2 ps bl' ps (Ok None)
      | Err e => mkFitRes (set_base (set_model c2 ps) bl') ps bl' ps (Err e)
      | Ok _ =>
        let ps1 := sort_peaks w ps in
        match cleanfit w ps1 (r_cluster c2) (e_cluster c2) with
        | Err e => mkFitRes (set_base (set_model c2 ps1) bl') (if fb then ps else ps1) bl' ps (Err e)
        | Ok (ps2, _) =>
          let c3 := set_base (set_model c2 ps2) bl' in
          let keep := if fb then ps else ps2 in
          let new_qual := w_quality w c3 in
          if w_qlt w new_qual orig_qual then mkFitRes c2 keep bl' ps (Ok None)
          else if justify && (length ps2 =? 1)%nat && (0 <? length (c_model c1))%nat then
            match min_npars w (c_pf c) with
            | Err e => mkFitRes c3 keep bl' ps (Err e)
            | Ok n => if w_growth w new_qual c3 n then mkFitRes c2 keep bl' ps (Ok None)
                      else mkFitRes c3 keep bl' ps (Ok (Some new_qual))
            end
          else mkFitRes c3 keep bl' ps (Ok (Some new_qual))
        end
      end
    end in
    c_base (fr_c f) = Some b \/
    (fb = true /\ (0 < w_b_npars w false b)%nat /\ exists m cc ps ob, w_engine w m (Some b) cc nt = ((ps, ob), Ok tt) /\ c_base (fr_c f) = ob) \/
    (exists e, fr_out f = Err e)).
  { intros c1 H1. cbv zeta. cbn [set_last c_base c_model]. rewrite H1.
    destruct (fb && (0 <? w_b_npars w false b)%nat) eqn:FB; cbn [andb].
    - apply andb_prop in FB as [-> NP]. apply Nat.ltb_lt in NP.
      destruct (w_engine w (c_model c1) (Some b) (set_last c1 (c_size c1)) nt) as [[ps ob] [[]|x]] eqn:EE;
        [|destruct x; cbn [fr_c set_last c_base]; try (now left; exact H1); right; right; cbn [fr_out]; eauto].
      destruct (cleanfit w _ _ _) as [[ps2 n]|x]; [|right; right; cbn [fr_out]; eauto]. destruct (w_qlt w _ _); [left; exact H1|].
      assert (K : forall l, c_base (set_base (set_model (set_last c1 (c_size c1)) l) ob) = ob) by reflexivity.
      destruct (justify && _ && _); [destruct (min_npars _ _); [destruct (w_growth _ _ _ _); [left; exact H1|]|right; right; cbn [fr_out]; eauto]|];
        right; left; (split; [reflexivity|split; [exact NP|]]); do 4 eexists; (split; [exact EE|apply K]).
    - destruct (w_engine w (c_model c1) None (set_last c1 (c_size c1)) nt) as [[ps ob] [[]|x]];
        [|destruct x; cbn [fr_c set_last c_base]; try (now left; exact H1); right; right; cbn [fr_out]; eauto].
      destruct (cleanfit w _ _ _) as [[ps2 n]|x]; [|right; right; cbn [fr_out]; eauto]. destruct (w_qlt w _ _); [left; exact H1|].
      destruct (justify && _ && _); [destruct (min_npars _ _); [destruct (w_growth _ _ _ _); left; [exact H1|reflexivity]|right; right; cbn [fr_out]; eauto]|left; reflexivity]. }
  destruct (c_model c) as [|p0 m0] eqn:M.
  - destruct est; [|left; exact HB]. destruct (estimatepeak w c) as [c1 o] eqn:EP. specialize (EST c1 o eq_refl).
    destruct o as [u|x]; [exact (GO c1 EST)|]. destruct x; try (left; exact EST).
  - exact (GO c HB).
Qed.

(** ** C206 *)
(** The model found by a nested call, or with a baseline without free parameters, has the
    very baseline given.  In every other case it has that, or what the optimiser left in it
    in the last fit. *)
Theorem C206_baseline_of_the_result :
  sane T bl ->
  forall fuel depth x y e ip c,
    DataClustersSpec.increasing x -> x <> [] -> length y = length x -> length e = length x ->
    extract T bl cres em pf fuel depth x y e ip = Some (Ok c) ->
    (depth <> 1%nat -> c_base c = Some bl) /\
    (w_b_npars w false bl = 0%nat -> c_base c = Some bl) /\
    (c_base c = Some bl \/ exists m cc ps ob, w_engine w m (Some bl) cc 0 = ((ps, ob), Ok tt) /\ c_base c = ob).
Proof.
  intros SN fuel depth x y e ip c HI HN LY LE E. destruct fuel as [|fuel]; [discriminate|]. cbn [extract] in E.
  assert (LS : length (vsum w x ip) = length y) by (rewrite (vsum_len T bl) by exact SN; congruence).
  assert (AR : arrays_ok (mkArr 0 x) (mkArr 1 (vsub w y (vsum w x ip))) (mkArr 2 e)).
  { unfold arrays_ok. cbn [adat]. rewrite ExtractProps.vsub_len; auto. }
  unfold run in E. apply obind_ok in E as ([[s mcs] mp] & E0 & E). apply lift_ok in E0. apply obind_ok in E as (u & EL & E).
  destruct (loop_result _ _ _ _ _ _ _ _ _ _ _ SN AR _ _ _ _ _ (at_start _ _ _ _ _ _ _ _ _ _ _ _ _ _ E0) EL) as (c0 & E1 & M). rewrite E1 in E.
  destruct M as (_ & _ & _ & _ & _ & _ & MB).
  unfold finish in E. apply obind_ok in E as (c1 & EA & E). apply lift_ok in EA.
  destruct (add_frame T bl SN _ _ _ EA) as (_ & _ & _ & _ & _ & FB & _).
  destruct (prune w _ _ _ c1) as [[m [v|x1]]|]; [|discriminate|discriminate].
  assert (B2 : c_base (set_model c1 m) = Some bl) by (cbn [set_model c_base]; congruence).
  destruct (Nat.eqb_spec depth 1) as [D|D].
  - destruct (fit_base_cases (set_model c1 m) false 0 true true bl B2) as [H|[(_ & NP & m' & cc & ps & ob & EE & H)|(x1 & H)]].
    + destruct (fr_out _); [|discriminate]. injection E as <-. split; [intros; contradiction|]. auto.
    + destruct (fr_out _); [|discriminate]. injection E as <-. split; [intros; contradiction|]. split; [intros Z0; lia|]. right. eauto 10.
    + rewrite H in E. discriminate.
  - injection E as <-. auto.
Qed.
End Base.

(** ** Concrete cases: an optimiser that lifts the baseline by one, with a baseline that has a
    free parameter and with one that has none. *)
Definition lift_base (m : list xpeak) (b : option Z) (c : cluster xpeak Z) (n : nat) : (list xpeak * option Z) * result unit :=
  ((m, match b with Some z => Some (z + 1) | None => None end), Ok tt).
Definition bworld (free : nat) : world xpeak Z Z :=
  mkWorld (fun x => x) (fun p => fst (fst p)) snd (fun _ => false)
    xvalue (fun cf p => 3%nat) (fun cf b => free) (fun b r => map (fun _ => b) r) Z.eqb isort (fun _ => 3%nat)
    (fun c => yqk c 0) Z.ltb (fun _ c _ => (length (c_model c) =? 0)%nat) tallest lift_base (fun a b => (a + b) / 2) (fun _ _ m => m).
Definition btools (free : nat) : xtools xpeak Z Z :=
  mkTools (bworld free) yqk zargmax DataClustersExamples.isort (fun _ n => Z.of_nat n) (fun z => z / 20 + 1).
Definition base_shown (r : option (result (cluster xpeak Z))) : option (option Z) :=
  match r with Some (Ok c) => Some (c_base c) | _ => None end.
Example C206_nonvacuous :
  sane (btools 1) 0 /\ sane (btools 0) 0 /\ DataClustersSpec.increasing vx /\
  base_shown (extract (btools 1) 0 2 0 [7%nat] 3 1 vx vy ve []) = Some (Some 1) /\
  base_shown (extract (btools 1) 0 2 0 [7%nat] 3 2 vx vy ve []) = Some (Some 0) /\
  base_shown (extract (btools 0) 0 2 0 [7%nat] 3 1 vx vy ve []) = Some (Some 0).
Proof.
  assert (S : forall n, sane (btools n) 0).
  { intros n. split; [split; intros; cbn [w_rnd t_w btools bworld]; lia|]. split; [exact isort_ok|]. split; [exact DataClustersExamples.isort_ok|].
    split; [apply Z.eqb_refl|]. split; intros; apply map_length. }
  split; [apply S|]. split; [apply S|]. split; [apply C50_three_levels_are_reached|]. vm_compute. auto.
Qed.

(** ** C217 *)
(** The largest and the smallest number of a list, independently of how they are computed. *)
Definition is_largest (m : Z) (l : list Z) : Prop := In m l /\ forall v, In v l -> v <= m.
Definition is_smallest (m : Z) (l : list Z) : Prop := In m l /\ forall v, In v l -> m <= v.

Lemma fold_max_largest l : forall a, is_largest (fold_left Z.max l a) (a :: l).
Proof.
  induction l as [|b l IH]; intros a; cbn [fold_left].
  - split; [now left|]. intros v [<-|[]]. lia.
  - destruct (IH (Z.max a b)) as [I U]. split.
    + destruct I as [I|I]; [|now right; right]. destruct (Z.max_spec a b) as [[_ M]|[_ M]]; rewrite M in I at 1; [right; left|left]; exact I.
    + intros v [<-|[<-|V]]; [| |now apply U; right]; specialize (U (Z.max a b) (or_introl eq_refl)); lia.
Qed.

Lemma fold_min_smallest l : forall a, is_smallest (fold_left Z.min l a) (a :: l).
Proof.
  induction l as [|b l IH]; intros a; cbn [fold_left].
  - split; [now left|]. intros v [<-|[]]. lia.
  - destruct (IH (Z.min a b)) as [I U]. split.
    + destruct I as [I|I]; [|now right; right]. destruct (Z.min_spec a b) as [[_ M]|[_ M]]; rewrite M in I at 1; [left|right; left]; exact I.
    + intros v [<-|[<-|V]]; [| |now apply U; right]; specialize (U (Z.min a b) (or_introl eq_refl)); lia.
Qed.

Section Nested.
Context {P B Q : Type}.
Variable T : xtools P B Q.

(** The uncertainties a nested search works with: those handed to it when all of them are
    positive, and otherwise, at every point, five percent of the range of its data. *)
Theorem C217_nested_uncertainties y e : y <> [] ->
  ((forall d, In d e -> 0 < d) -> default_edy T y e = e) /\
  ((exists d, In d e /\ d <= 0) ->
     exists hi lo, is_largest hi y /\ is_smallest lo y /\
       length (default_edy T y e) = length y /\
       forall v, In v (default_edy T y e) -> v = t_fivepercent T (w_rnd (t_w T) (hi - lo))).
Proof.
  intros NE. unfold default_edy. split.
  - intros A. replace (forallb _ e) with true; [reflexivity|]. symmetry. apply forallb_forall. intros d I. now apply Z.ltb_lt, A.
  - intros (d & I & L). replace (forallb _ e) with false.
    + destruct y as [|a r]; [congruence|]. exists (fold_left Z.max r a), (fold_left Z.min r a).
      split; [apply fold_max_largest|]. split; [apply fold_min_smallest|]. split; [apply repeat_length|]. intros v V. now apply repeat_spec in V.
    + symmetry. apply not_true_is_false. intros F. rewrite forallb_forall in F. specialize (F d I). apply Z.ltb_lt in F. lia.
Qed.
End Nested.
Example C217_nonvacuous :
  default_edy (btools 0) [30; 500; 10] [1; 2; 1] = [1; 2; 1] /\
  default_edy (btools 0) [30; 500; 10] [1; 0; 1] = [25; 25; 25].
Proof. vm_compute. split; reflexivity. Qed.

(** Properties C163-C166: access by name and index, changing formats. *)
From Coq Require Import String.
From Verif Require Import Prelude DataClustersProofs ModelClusterProofs ResampleProps Functions Parts Access.

(** ** C163 *)
(** A valid parameter dictionary of n parameters: distinct names, each index once. *)
Definition valid_dict (pdict : list (string * nat)) (n : nat) : Prop :=
  NoDup (map fst pdict) /\ forall i, (i < n)%nat <-> In i (map snd pdict).
Lemma dget_in pdict name i : NoDup (map fst pdict) -> In (name, i) pdict -> dget pdict name = Some i.
Proof.
  unfold dget. induction pdict as [|[k j] d IH]; intros ND HI; [destruct HI|]. cbn [find fst]. inversion ND as [|? ? NI ND']; subst.
  destruct (String.eqb_spec k name) as [->|N].
  - destruct HI as [E|HI]; [injection E as <-; reflexivity|]. exfalso. apply NI. cbn. apply in_map_iff. exists (name, i). auto.
  - destruct HI as [E|HI]; [congruence|now apply IH].
Qed.
Lemma dget_none pdict name : ~ In name (map fst pdict) -> dget pdict name = None.
Proof.
  unfold dget. induction pdict as [|[k j] d IH]; intros NI; [reflexivity|]. cbn [find fst]. destruct (String.eqb_spec k name) as [->|]; [exfalso; apply NI; now left|]. apply IH. intros C. apply NI. now right.
Qed.
Lemma upd_nth {A} (l : list A) i j v : nth_error (upd l i v) j = if ((i =? j) && (j <? List.length l))%nat then Some v else nth_error l j.
Proof.
  revert i j. induction l as [|a l IH]; intros i j.
  - cbn [upd List.length]. destruct (Nat.ltb_spec j 0); [lia|]. now rewrite andb_false_r.
  - destruct i as [|i]; destruct j as [|j]; cbn [upd nth_error List.length]; try reflexivity. rewrite IH. reflexivity.
Qed.
Lemma fill_nth {A} (l : list A) v : forall lo hi j, (lo <= hi)%nat -> nth_error (fill l lo hi v) j = if ((lo <=? j) && (j <? hi) && (j <? List.length l))%nat then Some v else nth_error l j.
Proof.
  induction l as [|a l IH]; intros lo hi j L; cbn [fill].
  - cbn [List.length]. destruct (Nat.ltb_spec j 0); [lia|]. now rewrite andb_false_r.
  - destruct j as [|j]; cbn [nth_error List.length].
    + destruct lo as [|lo]; cbn [Nat.eqb Nat.leb andb]; [destruct (0 <? hi)%nat; reflexivity|reflexivity].
    + rewrite IH by lia. destruct lo as [|lo]; destruct hi as [|hi]; cbn [Nat.sub]; rewrite ?Nat.sub_0_r; try reflexivity.
      all: try (exfalso; lia).
      all: replace (0 <=? j)%nat with true by (symmetry; apply Nat.leb_le; lia); reflexivity.
Qed.

Theorem C163_by_name_or_index :
  forall (V : Type) pdict n (pars : list V) (free : list bool),
    valid_dict pdict n -> List.length pars = n -> List.length free = n ->
    (* a name means the parameter at its index *)
    (forall name i, In (name, i) pdict -> exists v b,
       part_getitem pdict pars (KName name) = Ok (One v) /\ nth_error pars i = Some v /\
       part_getfree pdict free (KName name) = Ok (One b) /\ nth_error free i = Some b) /\
    (* other names are an IndexError *)
    (forall name, ~ In name (map fst pdict) -> part_getitem pdict pars (KName name) = Err IndexError /\
       part_getfree pdict free (KName name) = Err IndexError /\ forall b, part_setfree pdict free (KName name) b = Err IndexError) /\
    (* setting frees or fixes exactly the parameters that the same key reads *)
    (forall k b free', part_setfree pdict free k b = Ok free' -> List.length free' = n /\
       match part_getfree pdict free' k with Ok (One c) => c = b | Ok (Many l) => forall c, In c l -> c = b | Err _ => False end /\
       forall j, (j < n)%nat -> nth_error free' j = Some b \/ nth_error free' j = nth_error free j) /\
    (forall name i b, In (name, i) pdict -> exists free', part_setfree pdict free (KName name) b = Ok free' /\
       forall j, nth_error free' j = if (j =? i)%nat then Some b else nth_error free j).
Proof.
  intros V pdict n pars free (ND & IX) LP LF.
  assert (BI : forall name i, In (name, i) pdict -> (i < n)%nat) by (intros name i H; apply IX; apply in_map_iff; exists (name, i); auto).
  split; [|split; [|split]].
  - intros name i H. unfold part_getitem, part_getfree, redirect. rewrite (dget_in _ _ _ ND H). pose proof (BI name i H).
    destruct (nth_error pars i) as [v|] eqn:EV; [|apply nth_error_None in EV; lia]. destruct (nth_error free i) as [b|] eqn:EB; [|apply nth_error_None in EB; lia].
    exists v, b. unfold np_get. rewrite (pyget_ok _ _ _ EV), (pyget_ok _ _ _ EB). auto.
  - intros name H. unfold part_getitem, part_getfree, part_setfree, redirect. rewrite dget_none by exact H. auto.
  - intros k b free' E. unfold part_setfree, part_getfree in *. set (k' := redirect pdict k) in *. clearbody k'. destruct k' as [s|i|s]; [discriminate| |].
    + unfold np_set in E. destruct (pyget free i) as [a|] eqn:G; [|discriminate]. cbn [bind] in E. injection E as <-.
      unfold pyget in G. set (j := if (i <? 0)%Z then (i + Z.of_nat (List.length free))%Z else i) in *.
      destruct ((j <? 0)%Z || (Z.of_nat (List.length free) <=? j)%Z) eqn:RG; [discriminate|]. apply orb_false_iff in RG as [R1 R2]. apply Z.ltb_ge in R1. apply Z.leb_gt in R2.
      assert (JL : (Z.to_nat j < List.length free)%nat) by lia.
      assert (LU : List.length (upd free (Z.to_nat j) b) = List.length free) by apply upd_length.
      split; [now rewrite LU|]. split.
      * unfold np_get, pyget. rewrite LU. fold j. destruct (Z.ltb_spec j 0); [lia|]. destruct (Z.leb_spec (Z.of_nat (List.length free)) j); [lia|]. cbn [orb].
        rewrite upd_nth, Nat.eqb_refl. destruct (Nat.ltb_spec (Z.to_nat j) (List.length free)); [reflexivity|lia].
      * intros q _. rewrite upd_nth. destruct ((Z.to_nat j =? q) && (q <? List.length free))%nat; auto.
    + unfold np_set in E. injection E as <-. set (lo := slice_lo (List.length free) s). set (hi := slice_hi (List.length free) s).
      assert (LH : (lo <= hi)%nat) by (unfold lo, hi, slice_hi; lia).
      assert (LL : List.length (fill free lo hi b) = List.length free) by (clear; generalize lo, hi; induction free; intros; cbn; auto).
      split; [now rewrite LL|]. split.
      * unfold np_get, py_slice. rewrite LL. fold lo hi. intros c HC. apply In_nth_error in HC as (q & HQ).
        assert (QL : (q < hi - lo)%nat) by (destruct (Nat.lt_ge_cases q (hi - lo)); [assumption|]; assert (X : nth_error (firstn (hi - lo) (skipn lo (fill free lo hi b))) q = None) by (apply nth_error_None; rewrite firstn_length; lia); congruence).
        rewrite nth_error_firstn, (proj2 (Nat.ltb_lt _ _) QL), nth_error_skipn in HQ.
        rewrite fill_nth in HQ by exact LH. destruct (Nat.leb_spec lo (lo + q)); [|lia]. destruct (Nat.ltb_spec (lo + q) hi); [|lia]. cbn [andb] in HQ.
        destruct (Nat.ltb_spec (lo + q) (List.length free)); [now injection HQ|]. exfalso. assert (nth_error free (lo + q) = None) by (apply nth_error_None; lia). congruence.
      * intros j _. rewrite fill_nth by exact LH. destruct ((lo <=? j) && (j <? hi) && (j <? List.length free))%nat; auto.
  - intros name i b H. pose proof (BI name i H). unfold part_setfree, redirect. rewrite (dget_in _ _ _ ND H). unfold np_set.
    destruct (nth_error free i) as [a|] eqn:EA; [|apply nth_error_None in EA; lia]. rewrite (pyget_ok _ _ _ EA). cbn [bind].
    destruct (Z.ltb_spec (Z.of_nat i) 0); [lia|]. rewrite Nat2Z.id. eexists. split; [reflexivity|]. intros j. rewrite upd_nth, (Nat.eqb_sym j i).
    destruct (Nat.eqb_spec i j) as [->|]; [|reflexivity]. destruct (Nat.ltb_spec j (List.length free)); [reflexivity|lia].
Qed.
Print Assumptions C163_by_name_or_index.
(** A peak with position, width and area; width fixed. *)
Example C163_example :
  valid_dict [("position", 0); ("width", 1); ("area", 2)]%string%nat 3 /\
  part_getitem [("position", 0); ("width", 1); ("area", 2)]%string%nat [20; 3; 15] (KName "area") = Ok (One 15) /\
  part_setfree [("position", 0); ("width", 1); ("area", 2)]%string%nat [true; false; true] (KName "width") true = Ok [true; true; true] /\
  part_setfree [("position", 0); ("width", 1); ("area", 2)]%string%nat [true; false; true] (KSlice (Some (-2)%Z, None)) false = Ok [true; false; false].
Proof.
  split; [|repeat split; reflexivity]. split.
  - cbn [map fst]. repeat (constructor; [cbn [In]; intros C; repeat destruct C as [C|C]; try discriminate; exact C|]). constructor.
  - intros i. cbn [map snd In]. lia.
Qed.

(** ** C164 *)
Lemma slice_nat {A} (ms : list A) (a b k : nat) :
  nth_error (py_slice ms (Some (Z.of_nat a), Some (Z.of_nat b))) k = if (k <? b - a)%nat then nth_error ms (a + k) else None.
Proof.
  unfold py_slice, slice_hi, slice_lo, clip. cbn [fst snd].
  destruct (Z.ltb_spec (Z.of_nat a) 0); [lia|]. destruct (Z.ltb_spec (Z.of_nat b) 0); [lia|]. rewrite !Nat2Z.id.
  set (n := List.length ms). rewrite nth_error_firstn, nth_error_skipn.
  destruct (Nat.le_gt_cases n a) as [C|C].
  - assert (N : nth_error ms (a + k) = None) by (apply nth_error_None; unfold n in C; lia). rewrite N.
    destruct (Nat.ltb_spec k (Nat.max (Nat.min n a) (Nat.min n b) - Nat.min n a)); [lia|]. destruct (k <? b - a)%nat; reflexivity.
  - replace (Nat.min n a) with a by lia. destruct (Nat.ltb_spec k (b - a)).
    + destruct (Nat.ltb_spec k (Nat.max a (Nat.min n b) - a)); [reflexivity|]. symmetry. apply nth_error_None. unfold n in *. lia.
    + destruct (Nat.ltb_spec k (Nat.max a (Nat.min n b) - a)); [lia|reflexivity].
Qed.
Theorem C164_parts_of_a_model :
  forall (A : Type) (ms : list A), let n := List.length ms in
    (* an index gives that part, counted from the end if negative *)
    (forall i p, nth_error ms i = Some p -> parts_getitem ms (LIdx (Z.of_nat i)) = Ok (One p) /\ parts_getitem ms (LIdx (Z.of_nat i - Z.of_nat n)) = Ok (One p)) /\
    (forall z, (z < - Z.of_nat n \/ Z.of_nat n <= z)%Z -> parts_getitem ms (LIdx z) = Err IndexError) /\
    (* a slice or a pair gives the parts from start to stop - 1, in order *)
    (forall a b : nat, exists l, parts_getitem ms (LSlice (Some (Z.of_nat a), Some (Z.of_nat b))) = Ok (Many l) /\
       parts_getitem ms (LTuple [Some (Z.of_nat a); Some (Z.of_nat b)]) = Ok (Many l) /\
       forall k, nth_error l k = if (k <? b - a)%nat then nth_error ms (a + k) else None) /\
    (* nothing is lost or repeated by cutting in two, anywhere *)
    (forall z : Z, exists l r, parts_getitem ms (LSlice (None, Some z)) = Ok (Many l) /\ parts_getitem ms (LSlice (Some z, None)) = Ok (Many r) /\ (l ++ r)%list = ms) /\
    parts_getitem ms (LSlice (None, None)) = Ok (Many ms) /\
    (forall l, List.length l <> 2%nat -> parts_getitem ms (LTuple l) = Err TypeError).
Proof.
  intros A ms n. split; [|split; [|split; [|split; [|split]]]].
  - intros i p H. assert (L : (i < n)%nat) by (apply nth_error_Some; congruence). unfold parts_getitem. rewrite (pyget_ok _ _ _ H). split; [reflexivity|].
    unfold pyget. fold n. destruct (Z.ltb_spec (Z.of_nat i - Z.of_nat n) 0); [|lia]. replace (Z.of_nat i - Z.of_nat n + Z.of_nat n)%Z with (Z.of_nat i) by lia.
    destruct (Z.ltb_spec (Z.of_nat i) 0); [lia|]. destruct (Z.leb_spec (Z.of_nat n) (Z.of_nat i)); [lia|]. cbn [orb]. rewrite Nat2Z.id, H. reflexivity.
  - intros z H. unfold parts_getitem, pyget. fold n. destruct (Z.ltb_spec z 0).
    + destruct (Z.ltb_spec (z + Z.of_nat n) 0); [reflexivity|lia].
    + destruct (Z.ltb_spec z 0); [lia|]. destruct (Z.leb_spec (Z.of_nat n) z); [reflexivity|lia].
  - intros a b. exists (py_slice ms (Some (Z.of_nat a), Some (Z.of_nat b))). repeat split. intros k. apply slice_nat.
  - intros z. eexists _, _. split; [reflexivity|]. split; [reflexivity|]. unfold py_slice, slice_hi, slice_lo, clip. cbn [fst snd]. fold n.
    set (c := Nat.min n (Z.to_nat (if (z <? 0)%Z then (z + Z.of_nat n)%Z else z))). assert (c <= n)%nat by (unfold c; lia).
    cbn [Nat.max skipn]. rewrite Nat.sub_0_r. replace (Nat.max c n - c)%nat with (n - c)%nat by lia.
    rewrite (firstn_all2 (n := n - c)) by (rewrite skipn_length; unfold n; lia). apply firstn_skipn.
  - unfold parts_getitem, py_slice, slice_hi, slice_lo, clip. cbn [fst snd]. fold n. cbn [Nat.max skipn]. rewrite Nat.sub_0_r. unfold n. now rewrite firstn_all.
  - intros l H. destruct l as [|x [|y [|w l]]]; try reflexivity. cbn in H. lia.
Qed.
Print Assumptions C164_parts_of_a_model.
Example C164_example : parts_getitem [7; 8; 9] (LTuple [Some 1%Z; Some 5%Z]) = Ok (Many [8; 9]) /\ parts_getitem [7; 8; 9] (LIdx (-1)) = Ok (One 9).
Proof. split; reflexivity. Qed.

(** ** C165 *)
Section C165.
Context {F P : Type}.
Variable tpars : F -> P -> string -> string -> result P.
(** The parameters a part should have afterwards. *)
Definition converted (inf outf : string) (fp : F * P) : P := match tpars (fst fp) (snd fp) inf outf with Ok q => q | Err _ => snd fp end.

(** The outcome for any model: either all parts are converted, those whose functions do not
    know the formats staying as they are; or a part fails with another error, which is raised,
    and exactly the parts before it have been converted. *)
Theorem C165_transform :
  forall (ms out : list (F * P)) inf outf r, transform tpars ms inf outf = (out, r) ->
    List.length out = List.length ms /\ map fst out = map fst ms /\
    exists k, (k <= List.length ms)%nat /\
      (forall i f p, (i < k)%nat -> nth_error ms i = Some (f, p) -> nth_error out i = Some (f, converted inf outf (f, p)) /\ (forall e, tpars f p inf outf = Err e -> e = ValueError)) /\
      (forall i, (k <= i)%nat -> nth_error out i = nth_error ms i) /\
      match r with
      | Ok _ => k = List.length ms
      | Err e => e <> ValueError /\ exists f p, nth_error ms k = Some (f, p) /\ tpars f p inf outf = Err e
      end.
Proof.
  induction ms as [|[f p] ms IH]; intros out inf outf r H; cbn [transform] in H.
  - injection H as <- <-. split; [reflexivity|]. split; [reflexivity|]. exists 0%nat. split; [lia|]. split; [intros; lia|]. split; reflexivity.
  - assert (CASES : (exists q, q = converted inf outf (f, p) /\ (forall e, tpars f p inf outf = Err e -> e = ValueError) /\ (let '(r', e) := transform tpars ms inf outf in ((f, q) :: r', e)) = (out, r)) \/
                    (exists e, e <> ValueError /\ tpars f p inf outf = Err e /\ out = (f, p) :: ms /\ r = Err e)).
    { unfold converted. cbn [fst snd]. destruct (tpars f p inf outf) as [q|e]; [left; exists q; repeat split; auto; discriminate|].
      destruct e; try (right; eexists; repeat split; [|injection H as <- <-; reflexivity|injection H as <- <-; reflexivity]; discriminate).
      left. exists p. repeat split; auto. intros e E. now injection E. }
    destruct CASES as [(q & VQ & VE & HH)|(e & NE & TE & -> & ->)].
    + destruct (transform tpars ms inf outf) as [out' r'] eqn:T. injection HH as <- <-. destruct (IH _ _ _ _ T) as (L & M & k & KL & A & B & C).
      split; [cbn; now rewrite L|]. split; [cbn; now rewrite M|]. exists (S k). split; [cbn; lia|]. split; [|split].
      * intros [|i] f' p' Hi Hn; [injection Hn as <- <-; cbn; rewrite VQ; auto|]. apply A; [lia|exact Hn].
      * intros [|i] Hi; [lia|]. apply B. lia.
      * destruct r'; [cbn; now rewrite C|exact C].
    + split; [reflexivity|]. split; [reflexivity|]. exists 0%nat. split; [cbn; lia|]. split; [intros; lia|]. split; [reflexivity|]. split; [exact NE|]. exists f, p. auto.
Qed.
(** There and back: if the owners' conversions are inverse to each other and formats are
    known in both directions or in none, every part has its old parameters again. *)
Theorem C165_there_and_back :
  forall (ms out : list (F * P)) a b,
    (forall f p q, tpars f p a b = Ok q -> tpars f q b a = Ok p) ->
    (forall f p, tpars f p a b = Err ValueError -> tpars f p b a = Err ValueError) ->
    transform tpars ms a b = (out, Ok tt) -> transform tpars out b a = (ms, Ok tt).
Proof.
  intros ms out a b INV VE. revert out. induction ms as [|[f p] ms IH]; intros out H; cbn [transform] in H.
  - injection H as <-. reflexivity.
  - destruct (tpars f p a b) as [q|e] eqn:T.
    + destruct (transform tpars ms a b) as [out' r'] eqn:T'. injection H as <- ->. cbn [transform]. rewrite (INV _ _ _ T), (IH _ eq_refl). reflexivity.
    + destruct e; try discriminate. destruct (transform tpars ms a b) as [out' r'] eqn:T'. injection H as <- ->. cbn [transform]. rewrite (VE _ _ T), (IH _ eq_refl). reflexivity.
Qed.
End C165.
(** Function 0 knows "m" (units of 1000) and "km"; function 1 knows neither. *)
Definition ex_tpars (f : nat) (p : Z) (a b : string) : result Z :=
  if (f =? 1)%nat then Err ValueError else
  if (String.eqb a "km" && String.eqb b "m")%bool then Ok (1000 * p)%Z else if (String.eqb a "m" && String.eqb b "km")%bool then Ok (p / 1000)%Z else Err ValueError.
Example C165_example :
  transform ex_tpars [(0%nat, 3%Z); (1%nat, 5%Z)] "km" "m" = ([(0%nat, 3000%Z); (1%nat, 5%Z)], Ok tt) /\
  (forall f p q, ex_tpars f p "km" "m" = Ok q -> ex_tpars f q "m" "km" = Ok p) /\
  (forall f p, ex_tpars f p "km" "m" = Err ValueError -> ex_tpars f p "m" "km" = Err ValueError).
Proof.
  split; [reflexivity|]. split; intros f p.
  - intros q. unfold ex_tpars. destruct (f =? 1)%nat; [discriminate|]. cbn [String.eqb Ascii.eqb Bool.eqb andb].
    intros E. assert (Q : q = (p * 1000)%Z) by (rewrite Z.mul_comm; congruence). rewrite Q, Z.div_mul by lia. reflexivity.
  - unfold ex_tpars. destruct (f =? 1)%nat; [reflexivity|]. cbn. discriminate.
Qed.
Print Assumptions C165_transform.
Print Assumptions C165_there_and_back.

(** ** C166: the documented results of covariance() and pgradient() *)
Theorem C166_covariance_refuted :
  forall (C : Type) n key_int kwds, parts_covariance (C := C) n key_int kwds = Ok None \/ exists e, parts_covariance (C := C) n key_int kwds = Err e.
Proof.
  intros C n ki kwds. induction kwds as [|k r IH]; [now left|]. cbn [parts_covariance].
  destruct (ki k) as [i|]; [|right; eauto]. destruct (pyget (repeat tt n) i); cbn [bind]; [exact IH|right; eauto].
Qed.
(** Keywords that do not name a part are refused, though: the first one that is not a letter
    and an integer with ValueError, the first whose integer is no position with IndexError. *)
Theorem C166_keywords_checked :
  forall (C : Type) n key_int kwds,
    let good k := exists i, key_int k = Some i /\ (- Z.of_nat n <= i < Z.of_nat n)%Z in
    ((forall k, In k kwds -> good k) -> parts_covariance (C := C) n key_int kwds = Ok None) /\
    (forall a k b, kwds = a ++ k :: b -> (forall j, In j a -> good j) -> ~ good k ->
       parts_covariance (C := C) n key_int kwds = Err (match key_int k with None => ValueError | Some _ => IndexError end)).
Proof.
  intros C n ki kwds good.
  assert (PG : forall i, pyget (repeat tt n) i = if (- Z.of_nat n <=? i)%Z && (i <? Z.of_nat n)%Z then Ok tt else Err IndexError).
  { clear. intros i. unfold pyget. rewrite repeat_length.
    assert (NR : forall m, nth_error (repeat tt n) m = if (m <? n)%nat then Some tt else None).
    { induction n as [|n IH]; intros [|m]; try reflexivity. cbn [repeat nth_error]. rewrite IH. reflexivity. }
    repeat match goal with |- context [(?a <? ?b)%Z] => destruct (Z.ltb_spec a b) | |- context [(?a <=? ?b)%Z] => destruct (Z.leb_spec a b) end;
      cbn [andb orb negb]; try lia; try reflexivity; rewrite ?NR; try (destruct (Nat.ltb_spec (Z.to_nat i) n); try reflexivity; lia);
      match goal with |- context [(?a <? ?b)%nat] => destruct (Nat.ltb_spec a b); try reflexivity; lia end. }
  assert (STEP : forall k r, good k -> parts_covariance (C := C) n ki (k :: r) = parts_covariance (C := C) n ki r).
  { intros k r (i & K & B). cbn [parts_covariance]. rewrite K, PG. destruct (Z.leb_spec (- Z.of_nat n) i); [|lia]. destruct (Z.ltb_spec i (Z.of_nat n)); [|lia]. reflexivity. }
  split.
  - induction kwds as [|k r IH]; intros G; [reflexivity|]. rewrite STEP; [|apply G; now left]. apply IH. intros j J. apply G. now right.
  - intros a k b -> G B. induction a as [|j a IH]; cbn [app].
    + cbn [parts_covariance]. destruct (ki k) as [i|] eqn:K; [|reflexivity]. rewrite PG.
      destruct (Z.leb_spec (- Z.of_nat n) i); [|reflexivity]. destruct (Z.ltb_spec i (Z.of_nat n)); [|reflexivity]. exfalso. apply B. exists i. split; [exact K|lia].
    + rewrite STEP; [|apply G; now left]. apply IH. intros l L. apply G. now right.
Qed.
Theorem C166_pgradient_refuted : forall (P C : Type) (p : P) fmt, pgradient (C := C) p fmt = Ok None.
Proof. reflexivity. Qed.
Print Assumptions C166_covariance_refuted.
Print Assumptions C166_pgradient_refuted.

(** A concrete [argsort] and concrete data used by the non-vacuity examples
    and by the refutations. *)
From Coq Require Import Sorted.
From Verif Require Import DataClustersSpec DataClustersProofs.
Open Scope Z_scope.

Definition key (y : list Z) (i : Z) : Z := nth (Z.to_nat i) y 0.

Fixpoint ins (y : list Z) (i : Z) (l : list Z) : list Z :=
  match l with
  | [] => [i]
  | j :: r => if key y i <=? key y j then i :: j :: r else j :: ins y i r
  end.
Definition isort (y : list Z) : list Z :=
  fold_right (ins y) [] (map Z.of_nat (seq 0 (length y))).

Lemma ins_perm y i l : Permutation (ins y i l) (i :: l).
Proof.
  induction l as [|j l IH]; cbn; [constructor; constructor|].
  destruct (_ <=? _); [reflexivity|]. rewrite IH. apply perm_swap.
Qed.

Definition le_key y a b := key y a <= key y b.

Lemma ins_sorted y i l : StronglySorted (le_key y) l -> StronglySorted (le_key y) (ins y i l).
Proof.
  induction 1 as [|j l H IH Hf]; cbn; [constructor; constructor|].
  destruct (Z.leb_spec (key y i) (key y j)) as [Hle|Hgt].
  - constructor; [constructor; assumption|]. constructor; [exact Hle|].
    rewrite Forall_forall in *. intros b Hb. specialize (Hf b Hb). unfold le_key in *. lia.
  - constructor; [exact IH|]. rewrite Forall_forall in *. intros b Hb.
    apply (Permutation_in _ (ins_perm y i l)) in Hb. destruct Hb as [<-|Hb]; [unfold le_key; lia|auto].
Qed.

Lemma isort_ok : argsort_ok isort.
Proof.
  intros y. split.
  - unfold isort. induction (map Z.of_nat (seq 0 (length y))) as [|a l IH]; cbn; [constructor|].
    rewrite ins_perm. now constructor.
  - assert (S : StronglySorted (le_key y) (isort y)).
    { unfold isort. induction (map Z.of_nat (seq 0 (length y))); cbn; [constructor|now apply ins_sorted]. }
    revert S. generalize (isort y). induction 1 as [|c l H IH Hf]; intros i j a b Hij Hi Hj.
    + destruct i; discriminate.
    + destruct j as [|j]; [lia|]. cbn in Hj. destruct i as [|i]; cbn in Hi.
      * injection Hi as <-. rewrite Forall_forall in Hf. apply nth_error_In in Hj. apply (Hf _ Hj).
      * apply (IH i j); auto; lia.
Qed.

Lemma id_faithful : faithful (fun z => z).
Proof. split; [auto|]. intros a; reflexivity. Qed.

(** Rounding to even integers away from zero: a rounding that really rounds. *)
Definition coarse (z : Z) : Z := if z <? 0 then - (2 * ((- z + 1) / 2)) else 2 * ((z + 1) / 2).
Lemma coarse_faithful : faithful coarse.
Proof.
  unfold coarse. split.
  - intros a b H. destruct (Z.ltb_spec a 0), (Z.ltb_spec b 0); try lia;
      repeat match goal with |- context [?u / 2] =>
        lazymatch goal with H : u = _ |- _ => fail | _ => pose proof (Z.div_mod u 2 ltac:(lia));
           pose proof (Z.mod_pos_bound u 2 ltac:(lia)); generalize dependent (u / 2); intros end end; lia.
  - intros a. destruct (Z.ltb_spec a 0);
      repeat match goal with |- context [?u / 2] => pose proof (Z.div_mod u 2 ltac:(lia));
           pose proof (Z.mod_pos_bound u 2 ltac:(lia)); generalize dependent (u / 2); intros end; lia.
Qed.

Fixpoint incb (l : list Z) : bool :=
  match l with a :: ((b :: _) as r) => (a <? b) && incb r | _ => true end.
Lemma incb_increasing l : incb l = true -> increasing l.
Proof.
  intros H. assert (S : StronglySorted Z.lt l).
  { apply Sorted_StronglySorted; [intros a b c; lia|].
    induction l as [|a [|b l] IH]; [constructor|constructor; constructor|].
    cbn in H. apply andb_true_iff in H. destruct H as [H1 H2]. constructor; [apply IH; exact H2|].
    constructor. lia. }
  clear H. induction S as [|c l H IH Hf]; intros i j a b Hij Hi Hj; [destruct i; discriminate|].
  destruct j as [|j]; [lia|]. cbn in Hj. destruct i as [|i]; cbn in Hi.
  - injection Hi as <-. rewrite Forall_forall in Hf. apply nth_error_In in Hj. apply (Hf _ Hj).
  - apply (IH i j); auto; lia.
Qed.

(** Two peaks with a valley. *)
Definition ex_x : list Z := [0; 10; 20; 30; 40; 50; 60].
Definition ex_y : list Z := [1; 8; 3; 0; 4; 9; 2].
Definition ex_new (r : Z) : dc :=
  match construct isort ex_x ex_y r with Ok s => s | Err _ => clear_state end.
Fixpoint steps (k : nat) (s : dc) : dc :=
  match k with O => s | S j => steps j (fst (next (fun z => z) s)) end.

Lemma ex_reach r k : 0 <= r -> reach (fun z => z) isort ex_x ex_y r (steps k (ex_new r)).
Proof.
  intros Hr.
  assert (H : forall k s, reach (fun z => z) isort ex_x ex_y r s -> reach (fun z => z) isort ex_x ex_y r (steps k s)).
  { induction k0 as [|j IH]; intros s H; cbn; [exact H|]. apply IH. now constructor. }
  apply H. constructor. unfold ex_new, construct. cbn [length ex_x ex_y Nat.eqb negb].
  destruct (Z.ltb_spec r 0); [lia|]. reflexivity.
Qed.

Lemma increasing_pairs_ok a b c d : (a < b)%nat -> (c < d)%nat -> increasing_groups [[a; b]; [c; d]].
Proof.
  intros H1 H2 g [<-|[<-|[]]] i j u v Hij Hi Hj;
    (destruct j as [|[|j]]; [lia| |destruct j; discriminate]);
    (destruct i as [|i]; [|lia]); cbn in Hi, Hj; injection Hi as <-; injection Hj as <-; assumption.
Qed.

(** Vocabulary of the clustering properties, independent of the algorithm. *)
From Coq Require Export Permutation.
From Verif Require Export Prelude DataClusters.
Open Scope Z_scope.

(** Rounding of a difference keeps order and never turns a non-zero
    difference into zero (IEEE subtraction with gradual underflow). *)
Definition faithful (rnd : Z -> Z) : Prop :=
  (forall a b, a <= b -> rnd a <= rnd b) /\ (forall a, rnd a = 0 <-> a = 0).

(** x is strictly increasing. *)
Definition increasing (x : list Z) : Prop :=
  forall i j a b, (i < j)%nat -> nth_error x i = Some a -> nth_error x j = Some b -> a < b.

(** [argsort y] is a permutation of the indices along which y never decreases. *)
Definition argsort_ok (argsort : list Z -> list Z) : Prop :=
  forall y, Permutation (argsort y) (map Z.of_nat (seq 0 (length y))) /\
    forall i j a b, (i < j)%nat -> nth_error (argsort y) i = Some a ->
      nth_error (argsort y) j = Some b ->
      nth (Z.to_nat a) y 0 <= nth (Z.to_nat b) y 0.

(** Clusters are in-range intervals, strictly ordered and disjoint. *)
Definition well_formed (n : Z) (cs : list (Z * Z)) : Prop :=
  (forall k lo hi, nth_error cs k = Some (lo, hi) -> 0 <= lo <= hi /\ hi < n) /\
  (forall i j lo hi lo' hi', (i < j)%nat -> nth_error cs i = Some (lo, hi) ->
     nth_error cs j = Some (lo', hi') -> hi < lo').

(** Point i belongs to some cluster. *)
Definition covered (cs : list (Z * Z)) (i : Z) : Prop :=
  exists lo hi, In (lo, hi) cs /\ lo <= i <= hi.

(** Coordinate of point i (only used for 0 <= i < length x). *)
Definition at_ (x : list Z) (i : Z) : Z := nth (Z.to_nat i) x 0.

(** Distance of point i to the nearer edge of the cluster [lo,hi]; 0 inside. *)
Definition gap (rnd : Z -> Z) (x : list Z) (c : Z * Z) (i : Z) : Z :=
  if i <? fst c then Z.abs (rnd (at_ x i - at_ x (fst c)))
  else if snd c <? i then Z.abs (rnd (at_ x i - at_ x (snd c)))
  else 0.

(** Public operations of the iterator. *)
Inductive op := Next | Reset | Combine (groups : list (list nat)).

Definition apply (rnd : Z -> Z) (s : dc) (o : op) : dc * result unit :=
  match o with
  | Next => next rnd s
  | Reset => reset_clusters s
  | Combine g => combine_clusters s g
  end.

(** A combine request lists, per group, strictly increasing cluster numbers. *)
Definition increasing_groups (g : list (list nat)) : Prop :=
  forall c, In c g -> forall i j a b, (i < j)%nat ->
    nth_error c i = Some a -> nth_error c j = Some b -> (a < b)%nat.

(** States reachable from construction on (x, y, r): any [next] (also one
    that raises StopIteration), any reset, any *accepted* combine request whose groups are
    increasing, as the method's documentation demands. *)
Inductive reach (rnd : Z -> Z) (argsort : list Z -> list Z) (x y : list Z) (r : Z)
  : dc -> Prop :=
| reach_new : forall s, construct argsort x y r = Ok s -> reach rnd argsort x y r s
| reach_next : forall s, reach rnd argsort x y r s ->
    reach rnd argsort x y r (fst (next rnd s))
| reach_reset : forall s, reach rnd argsort x y r s ->
    reach rnd argsort x y r (fst (reset_clusters s))
| reach_combine : forall s g s', reach rnd argsort x y r s -> increasing_groups g ->
    combine_clusters s g = (s', Ok tt) -> reach rnd argsort x y r s'.

(** A maximal run l..r of consecutive clusters without gaps. *)
Definition touching (cs : list (Z * Z)) (i : nat) : Prop :=
  exists lo hi lo' hi', nth_error cs i = Some (lo, hi) /\
    nth_error cs (S i) = Some (lo', hi') /\ lo' = hi + 1.
Definition maximal_run (cs : list (Z * Z)) (l r : nat) : Prop :=
  (l < r)%nat /\ (r < length cs)%nat /\
  (forall i, (l <= i < r)%nat -> touching cs i) /\
  (forall i, S i = l -> ~ touching cs i) /\ ~ touching cs r.

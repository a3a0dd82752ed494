(** Properties C213, C214: what value and jacobian accept as r. *)
From Verif Require Import Prelude ValueKinds.

Section Props.
Context {X W : Type}.
Variable zero_of : X -> W.
Notation out := (out W).

(** Python: the slice start:stop of a sequence of n members selects position i. *)
Definition from_front (n : nat) (z : Z) : Z := if (z <? 0)%Z then (z + Z.of_nat n)%Z else z.
Definition selects (n : nat) (rng : option (option Z * option Z)) (i : nat) : Prop :=
  match rng with
  | None => True
  | Some (a, b) => match a with None => True | Some a => (from_front n a <= Z.of_nat i)%Z end /\
                   match b with None => True | Some b => (Z.of_nat i < from_front n b)%Z end
  end.

Lemma bound_spec n z i : i < n -> (bound n z <= i <-> (from_front n z <= Z.of_nat i)%Z).
Proof. intros H. unfold bound, from_front. destruct (Z.ltb_spec z 0); lia. Qed.
Lemma bound_le n z : bound n z <= n.
Proof. unfold bound. destruct (z <? 0)%Z; lia. Qed.
Lemma slice_bounds n rng : fst (slice_of n rng) <= snd (slice_of n rng) <= n.
Proof.
  unfold slice_of. destruct rng as [[a b]|]; cbn [fst snd]; [|lia].
  assert (match a with None => 0 | Some i => bound n i end <= n) by (destruct a; [apply bound_le|lia]).
  assert (match b with None => n | Some i => bound n i end <= n) by (destruct b; [apply bound_le|lia]). lia.
Qed.
Lemma slice_selects n rng i : i < n -> (fst (slice_of n rng) <= i < snd (slice_of n rng) <-> selects n rng i).
Proof.
  intros H. unfold slice_of, selects. destruct rng as [[a b]|]; cbn [fst snd]; [|split; [auto|lia]].
  assert (A : match a with None => 0 | Some z => bound n z end <= i <-> match a with None => True | Some a => (from_front n a <= Z.of_nat i)%Z end)
    by (destruct a; [now apply bound_spec|split; [auto|lia]]).
  assert (C : i < match b with None => n | Some z => bound n z end <-> match b with None => True | Some b => (Z.of_nat i < from_front n b)%Z end).
  { destruct b as [b|]; [|split; auto]. pose proof (bound_spec n b i H). lia. }
  rewrite <- A, <- C. lia.
Qed.

Lemma part_length {A} (l : list A) s : fst s <= snd s <= length l -> length (part_of l s) = snd s - fst s.
Proof. intros H. unfold part_of. rewrite firstn_length, skipn_length. lia. Qed.
Lemma part_nth {A} (l : list A) s i : i < snd s - fst s -> nth_error (part_of l s) i = nth_error l (fst s + i).
Proof.
  intros H. unfold part_of.
  assert (F' : forall (m : list A) k j, j < k -> nth_error (firstn k m) j = nth_error m j).
  { clear. induction m as [|a m IH]; intros [|k] [|j] H; try lia; auto. cbn. apply IH. lia. }
  rewrite F' by exact H. generalize (fst s). intros k. clear. revert l. induction k as [|k IH]; intros l; [reflexivity|]. destruct l; cbn; [now destruct i|apply IH].
Qed.
Lemma skip_nth {A} (l : list A) k i : nth_error (skipn k l) i = nth_error l (k + i).
Proof. revert l. induction k as [|k IH]; intros l; [reflexivity|]. destruct l; cbn; [now destruct i|apply IH]. Qed.
Lemma first_nth {A} (l : list A) : forall k i, i < k -> nth_error (firstn k l) i = nth_error l i.
Proof. induction l as [|a l IH]; intros [|k] [|i] H; try lia; auto. cbn. apply IH. lia. Qed.

(** put: the given values in the slice, r * 0.0 elsewhere *)
Lemma put_pointwise (f : X -> W) l rng :
  exists v, put zero_of l (slice_of (length l) rng) (OArr (map f (part_of l (slice_of (length l) rng)))) = Ok v /\ length v = length l /\
    forall i x, nth_error l i = Some x ->
      (selects (length l) rng i -> nth_error v i = Some (f x)) /\ (~ selects (length l) rng i -> nth_error v i = Some (zero_of x)).
Proof.
  set (s := slice_of (length l) rng). pose proof (slice_bounds (length l) rng) as B. fold s in B. pose proof (part_length l s B) as PL.
  unfold put. rewrite map_length, Nat.eqb_refl. eexists. split; [reflexivity|].
  split; [rewrite !app_length, !map_length, firstn_length, skipn_length, PL; lia|]. intros i x N.
  assert (IL : i < length l) by (apply nth_error_Some; congruence). pose proof (slice_selects (length l) rng i IL) as SS. fold s in SS.
  assert (L1 : length (map zero_of (firstn (fst s) l)) = fst s) by (rewrite map_length, firstn_length; lia).
  split; intros SEL.
  - apply SS in SEL. rewrite nth_error_app2 by lia. rewrite L1, nth_error_app1 by (rewrite map_length; lia).
    apply map_nth_error. rewrite part_nth by lia. replace (fst s + (i - fst s)) with i by lia. exact N.
  - assert (i < fst s \/ snd s <= i) as [H|H] by (rewrite <- SS in SEL; lia).
    + rewrite nth_error_app1 by lia. apply map_nth_error. now rewrite first_nth.
    + rewrite nth_error_app2 by lia. rewrite L1, nth_error_app2 by (rewrite map_length; lia). rewrite map_length, PL.
      apply map_nth_error. rewrite skip_nth. replace (snd s + (i - fst s - (snd s - fst s))) with i by lia. exact N.
Qed.

(** A function that is evaluated point by point, as all functions of the package are on arrays
    and numbers. *)
Definition pointwise (raw : rkind X -> result out) (f : X -> W) : Prop :=
  (forall l, raw (Arr l) = Ok (OArr (map f l))) /\ (forall x, raw (Num x) = Ok (ONum (f x))) /\ (forall x, raw (NpNum x) = Ok (ONum (f x))).

Theorem C213_value :
  forall raw f, pointwise raw f ->
    (* arrays: as long as r; the function in the range, zero (for finite r) elsewhere *)
    (forall l rng, exists v, value zero_of raw (Arr l) rng = Ok (OArr v) /\ length v = length l /\
       forall i x, nth_error l i = Some x ->
         (selects (length l) rng i -> nth_error v i = Some (f x)) /\ (~ selects (length l) rng i -> nth_error v i = Some (zero_of x))) /\
    (* numbers, whatever the range *)
    (forall x rng, value zero_of raw (Num x) rng = Ok (ONum (f x))) /\ (forall x, value zero_of raw (NpNum x) None = Ok (ONum (f x))).
Proof.
  intros raw f (P1 & P2 & P3). split; [|split].
  - intros l rng. unfold value. rewrite P1. cbn [bind]. destruct (put_pointwise f l rng) as (v & -> & L & V). cbn [bind]. exists v. auto.
  - intros x rng. unfold value. apply P2.
  - intros x. unfold value. apply P3.
Qed.

(** A jacobian with the columns [js], None for fixed parameters. *)
Definition jpointwise (jraw : rkind X -> result (list (option out))) (js : list (option (X -> W))) : Prop :=
  (forall l, jraw (Arr l) = Ok (map (option_map (fun f => OArr (map f l))) js)) /\
  (forall x, jraw (Num x) = Ok (map (option_map (fun f => ONum (f x))) js)) /\ (forall x, jraw (NpNum x) = Ok (map (option_map (fun f => ONum (f x))) js)).
Theorem C213_jacobian :
  forall jraw js, jpointwise jraw js ->
    (forall l rng, exists cs, jacobian zero_of jraw (Arr l) rng = Ok cs /\ length cs = length js /\
       forall k, match nth_error js k with
         | None => True
         | Some None => nth_error cs k = Some None
         | Some (Some f) => exists v, nth_error cs k = Some (Some (OArr v)) /\ length v = length l /\
             forall i x, nth_error l i = Some x ->
               (selects (length l) rng i -> nth_error v i = Some (f x)) /\ (~ selects (length l) rng i -> nth_error v i = Some (zero_of x))
         end) /\
    (forall x rng, jacobian zero_of jraw (Num x) rng = Ok (map (option_map (fun f => ONum (f x))) js)).
Proof.
  intros jraw js (P1 & P2 & _). split; [|intros x rng; apply P2].
  intros l rng. unfold jacobian. rewrite P1. cbn [bind]. set (s := slice_of (length l) rng).
  assert (G : exists cs, put_all zero_of l s (map (option_map (fun f => OArr (map f (part_of l s)))) js) = Ok cs /\ length cs = length js /\
    forall k, match nth_error js k with
         | None => True
         | Some None => nth_error cs k = Some None
         | Some (Some f) => exists v, nth_error cs k = Some (Some (OArr v)) /\ length v = length l /\
             forall i x, nth_error l i = Some x ->
               (selects (length l) rng i -> nth_error v i = Some (f x)) /\ (~ selects (length l) rng i -> nth_error v i = Some (zero_of x))
         end).
  { clear P1 P2. induction js as [|[f|] js IH]; cbn [map option_map put_all].
    - exists []. split; [reflexivity|]. split; [reflexivity|]. intros [|k]; exact I.
    - destruct IH as (cs & E & L & H). destruct (put_pointwise f l rng) as (v & EV & LV & HV). fold s in EV. rewrite EV. cbn [bind]. rewrite E. cbn [bind].
      exists (Some (OArr v) :: cs). split; [reflexivity|]. split; [cbn [length]; now f_equal|]. intros [|k]; [cbn; exists v; auto|exact (H k)].
    - destruct IH as (cs & E & L & H). rewrite E. cbn [bind]. exists (None :: cs). split; [reflexivity|]. split; [cbn [length]; now f_equal|]. intros [|k]; [reflexivity|exact (H k)]. }
  destruct G as (cs & -> & H). exists cs. auto.
Qed.

(** An exception of the function is passed on, except TypeError: then the function is evaluated
    once more, on all of r, and that is the result. *)
Theorem C213_exceptions :
  forall raw l rng e, raw (Arr (part_of l (slice_of (length l) rng))) = Err e ->
    value zero_of raw (Arr l) rng = match e with TypeError => raw (Arr l) | _ => Err e end.
Proof. intros raw l rng e E. unfold value. rewrite E. cbn [bind]. now destruct e. Qed.

(** ** C214: violated *)
(** A list: the range is not respected, all points are evaluated. *)
Theorem C214_list_refuted :
  forall raw jraw l rng, value zero_of raw (Lst l) rng = raw (Lst l) /\
    (forall a v t, jraw (Lst (part_of l (slice_of (length l) rng))) = Ok (a ++ Some v :: t) -> jacobian zero_of jraw (Lst l) rng = jraw (Lst l)).
Proof.
  intros raw jraw l rng. split; [reflexivity|]. intros a v t E. unfold jacobian. rewrite E. cbn [bind]. rewrite existsb_app. cbn [existsb]. now rewrite orb_true_r.
Qed.
(** A numpy number with a range is refused, a Python number is not. *)
Theorem C214_numpy_number_refuted :
  forall raw jraw x a b, value zero_of raw (NpNum x) (Some (a, b)) = Err IndexError /\ jacobian zero_of jraw (NpNum x) (Some (a, b)) = Err IndexError.
Proof. intros. split; reflexivity. Qed.
End Props.

(** Numbers with an infinity (None): 0 times infinity is not 0. *)
Definition times_zero (x : option Z) : option Z := option_map (fun _ => 0%Z) x.
Theorem C214_infinite_r_refuted :
  exists (raw : rkind (option Z) -> result (out (option Z))) f l rng v i, pointwise raw f /\ value times_zero raw (Arr l) rng = Ok (OArr v) /\
    ~ selects (length l) rng i /\ i < length l /\ nth_error v i <> Some (Some 0%Z).
Proof.
  exists (fun r => match r with Arr l | Lst l => Ok (OArr l) | Num x | NpNum x => Ok (ONum x) end), (fun x => x), [Some 5; None]%Z, (Some (Some 0, Some 1))%Z. eexists. exists 1.
  split; [repeat split; intros; cbn; now rewrite ?map_id|]. split; [reflexivity|]. split; [cbn; lia|]. split; [cbn; lia|]. cbn. discriminate.
Qed.

Example C213_nonvacuous :
  let raw (r : rkind Z) := match r with Arr l | Lst l => Ok (OArr (map Z.succ l)) | Num x | NpNum x => Ok (ONum (Z.succ x)) end in
  pointwise raw Z.succ /\
  value (fun _ => 0)%Z raw (Arr [5; 6; 7; 8]%Z) (Some (Some (-3), Some 3))%Z = Ok (OArr [0; 7; 8; 0]%Z) /\
  value (fun _ => 0)%Z raw (Lst [5; 6; 7; 8]%Z) (Some (Some (-3), Some 3))%Z = Ok (OArr [6; 7; 8; 9]%Z) /\
  selects 4 (Some (Some (-3), Some 3))%Z 1 /\ ~ selects 4 (Some (Some (-3), Some 3))%Z 3.
Proof. repeat split; cbn; try reflexivity; lia. Qed.

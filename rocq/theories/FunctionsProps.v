(** Properties C19, C20 and the function half of C21 (basefunction.py). *)
From Coq Require Import String Permutation.
From Verif Require Import Prelude Functions FunctionsProofs.

(** ** C19 *)
(** For every acyclic family of functions (some rank decreases from a function to the
    one it decorates) and any list fs: the written list has no repetitions, contains
    fs, contains exactly what fs needs, and every base stands before its user. *)
Theorem C19_safe_list :
  forall (base : nat -> option nat) (rank : nat -> nat) depth fs,
    (forall f g, base f = Some g -> rank g < rank f) -> (forall f, In f fs -> rank f < depth) ->
    exists l, safefunctionlist base depth fs = Some l /\ NoDup l /\
      (forall x, In x l <-> exists f, In f fs /\ needs base f x) /\
      (forall i f g, nth_error l i = Some f -> base f = Some g -> exists j, j < i /\ nth_error l j = Some g).
Proof.
  intros base rank depth fs Hr Hd.
  destruct (safe_loop_ok base rank Hr depth fs [] Hd) as (l & E & S & I & N).
  { split; [constructor|]. intros []; discriminate. }
  cbn in *. exists l. split; [exact E|]. split; [apply S|]. split; [|apply S].
  intros x. split; [apply N|]. intros (f & Hf & Hn). eapply safe_order_needs; eauto.
Qed.
Print Assumptions C19_safe_list.

(** Writing that list never fails, and loading it in order succeeds and rebuilds the
    same references. *)
Theorem C19_references_survive_save_and_load :
  forall (base : nat -> option nat) (rank : nat -> nat) depth fs l,
    (forall f g, base f = Some g -> rank g < rank f) -> (forall f, In f fs -> rank f < depth) ->
    safefunctionlist base depth fs = Some l ->
    exists ws ls, write_all base l l = Ok ws /\ load_all ws [] = Ok ls /\ mirrors base l ls.
Proof.
  intros base rank depth fs l Hr Hd El.
  destruct (safe_loop_ok base rank Hr depth fs [] Hd) as (l' & E & S & _).
  { split; [constructor|]. intros []; discriminate. }
  cbn in *. unfold safefunctionlist in El. rewrite E in El. injection El as <-.
  destruct (write_all_spec base l' l') as (ws & Ew & Len & P).
  { intros f g Hf B. eapply safe_order_closed; eauto. }
  destruct (load_all_spec base l' ws S Len P) as (ls & El & M). exists ws, ls. auto.
Qed.
Print Assumptions C19_references_survive_save_and_load.

(** Acyclicity is needed: a cyclic dependency exhausts every recursion limit. *)
Theorem C19_cycle_never_finishes :
  forall base depth f, (forall h, needs base f h -> base h <> None) ->
    safefunctionlist base depth [f] = None.
Proof.
  intros base depth f H. unfold safefunctionlist. cbn. rewrite safefunction_cycle; [reflexivity|].
  intros h Hn. split; [apply H; exact Hn|auto].
Qed.
Print Assumptions C19_cycle_never_finishes.

(** 5 decorates 3, 3 decorates 1, 4 decorates 1. *)
Definition ex_base (f : nat) : option nat :=
  match f with 5 => Some 3 | 3 => Some 1 | 4 => Some 1 | _ => None end.
Example C19_nonvacuous :
  (forall f g, ex_base f = Some g -> g < f) /\
  safefunctionlist ex_base 10 [4; 5; 4; 2] = Some [1; 4; 3; 5; 2] /\
  write_all ex_base [1; 4; 3; 5; 2] [1; 4; 3; 5; 2] = Ok [None; Some 0; Some 0; Some 2; None]%Z /\
  safefunctionlist (fun f => Some (1 - f)) 1000 [0] = None.
Proof.
  split; [|vm_compute; auto].
  intros f g. do 6 (destruct f as [|f]; [cbn; intros H; try discriminate; injection H as <-; lia|]).
  cbn. discriminate.
Qed.

(** ** C20 *)
(** What the index check really does, for every list and index. *)
Theorem C104_factory_index_behaviour :
  forall A (l : list A) idx,
    let n := Z.of_nat (List.length l) in
    ((n < idx)%Z -> factory_ref idx l = Err ValueError) /\
    (idx = n -> factory_ref idx l = Err IndexError) /\
    ((0 <= idx < n)%Z -> exists a, factory_ref idx l = Ok a /\ nth_error l (Z.to_nat idx) = Some a) /\
    ((- n <= idx < 0)%Z -> exists a, factory_ref idx l = Ok a /\ nth_error l (Z.to_nat (idx + n)) = Some a) /\
    ((idx < - n)%Z -> factory_ref idx l = Err IndexError).
Proof.
  intros A l idx n. unfold factory_ref, pyget. fold n.
  assert (G : forall k, (0 <= k < n)%Z -> exists a, nth_error l (Z.to_nat k) = Some a).
  { intros k Hk. destruct (nth_error l (Z.to_nat k)) eqn:E; [eauto|]. apply nth_error_None in E. unfold n in Hk. lia. }
  assert (0 <= n)%Z by (unfold n; lia).
  repeat split; intros H0; rewrite Z.gtb_ltb.
  - destruct (Z.ltb_spec n idx); [reflexivity|lia].
  - destruct (Z.ltb_spec n idx); [lia|]. destruct (Z.ltb_spec idx 0); [lia|]. destruct (Z.ltb_spec idx 0); [lia|].
    destruct (Z.leb_spec n idx); [reflexivity|lia].
  - destruct (G idx H0) as [a Ha]. exists a. destruct (Z.ltb_spec n idx); [lia|]. destruct (Z.ltb_spec idx 0); [lia|].
    destruct (Z.leb_spec n idx); [lia|]. destruct (Z.ltb_spec idx 0); [lia|]. cbn. rewrite Ha. auto.
  - destruct (G (idx + n)%Z ltac:(lia)) as [a Ha]. exists a. destruct (Z.ltb_spec n idx); [lia|].
    destruct (Z.ltb_spec idx 0); [|lia]. destruct (Z.leb_spec n (idx + n)); [lia|].
    destruct (Z.ltb_spec (idx + n) 0); [lia|]. cbn. rewrite Ha. auto.
  - destruct (Z.ltb_spec n idx); [lia|]. destruct (Z.ltb_spec idx 0); [|lia].
    destruct (Z.ltb_spec (idx + n) 0); [reflexivity|lia].
Qed.
Print Assumptions C104_factory_index_behaviour.

(** The documented ValueError is not raised at the first missing index, for any list. *)
Theorem C20_off_by_one_refuted :
  forall A (l : list A), factory_ref (Z.of_nat (List.length l)) l = Err IndexError /\
    part_factory_owner (Z.of_nat (List.length l)) l = Err IndexError.
Proof.
  intros A l. destruct (C104_factory_index_behaviour A l (Z.of_nat (List.length l))) as (_ & H & _).
  unfold part_factory_owner. rewrite (H eq_refl). auto.
Qed.
Print Assumptions C20_off_by_one_refuted.

(** ** C21 (function constructor) *)
Theorem C21_function_constructor_exact :
  forall pd pf df,
    let ok := (forall k v, In (k, v) pd -> exists s, k = KStr s) /\
      Permutation (map snd pd) (map Z.of_nat (seq 0 (List.length pd))) /\
      (exists f, In ("default_input"%string, f) df) /\ (exists f, In ("default_output"%string, f) df) /\
      (forall k f, In (k, f) df -> In f pf) in
    (ok -> function_init pd pf df = Ok (List.length pd)) /\ (~ ok -> function_init pd pf df = Err ValueError).
Proof.
  intros pd pf df ok.
  assert (K1 : forallb (fun kv => is_str (fst kv)) pd = true <-> forall k v, In (k, v) pd -> exists s, k = KStr s).
  { rewrite forallb_forall. split.
    - intros H k v Hin. specialize (H _ Hin). destruct k; [eauto|discriminate].
    - intros H [k v] Hin. destruct (H k v Hin) as [s ->]. reflexivity. }
  pose proof (zsort_range (map snd pd) (List.length pd)) as K2.
  assert (K3 : forall k, existsb (fun kv => String.eqb (fst kv) k) df = true <-> exists f, In (k, f) df).
  { intros k. rewrite existsb_exists. split.
    - intros ([a f] & Hin & E). cbn in E. apply String.eqb_eq in E. subst. eauto.
    - intros [f Hin]. exists (k, f). split; [exact Hin|apply String.eqb_refl]. }
  assert (K4 : forallb (fun kv => existsb (String.eqb (snd kv)) pf) df = true <-> forall k f, In (k, f) df -> In f pf).
  { rewrite forallb_forall. split.
    - intros H k f Hin. specialize (H _ Hin). cbn in H. apply existsb_exists in H. destruct H as (x & Hx & E).
      apply String.eqb_eq in E. now subst.
    - intros H [k f] Hin. apply existsb_exists. exists f. split; [eapply H; eauto|apply String.eqb_refl]. }
  unfold function_init.
  destruct (forallb _ pd); cbn [negb].
  2:{ split; [|auto]. intros (O1 & _). apply K1 in O1. discriminate. }
  destruct (zlist_eqb _ _); cbn [negb].
  2:{ split; [|auto]. intros (_ & O1 & _). apply K2 in O1. discriminate. }
  destruct (existsb (fun kv => String.eqb (fst kv) "default_input") df) eqn:E1; cbn [andb negb].
  2:{ split; [|auto]. intros (_ & _ & O1 & _). apply K3 in O1. congruence. }
  destruct (existsb (fun kv => String.eqb (fst kv) "default_output") df) eqn:E2; cbn [negb].
  2:{ split; [|auto]. intros (_ & _ & _ & O1 & _). apply K3 in O1. congruence. }
  destruct (forallb _ df) eqn:E3; cbn [negb].
  2:{ split; [|auto]. intros (_ & _ & _ & _ & O1). apply K4 in O1. congruence. }
  split; [auto|]. intros N. exfalso. apply N. split; [now apply K1|]. split; [now apply K2|].
  split; [now apply K3|]. split; [now apply K3|]. now apply K4.
Qed.
Print Assumptions C21_function_constructor_exact.

(** A function built with valid defaults resolves the generic format names to its own
    formats; the result is always one of its formats, any other name is a ValueError. *)
Theorem C21_format_names :
  forall pd pf df n, function_init pd pf df = Ok n ->
    ~ In "default_input"%string pf -> ~ In "default_output"%string pf ->
    forall dflt fmt, (dflt = "default_input" \/ dflt = "default_output")%string ->
    let r := resolve df pf dflt fmt in
    (forall f, r = Ok f -> In f pf) /\
    (fmt = None \/ fmt = Some "default_input"%string \/ fmt = Some "default_output"%string ->
       exists f, r = Ok f) /\
    (forall f, fmt = Some f -> f <> "default_input"%string -> f <> "default_output"%string ->
       r = if in_dec string_dec f pf then Ok f else Err ValueError).
Proof.
  intros pd pf df n HI Ni No dflt fmt Hd r.
  assert (DF : forall k, (k = "default_input" \/ k = "default_output")%string -> exists f, lookup df k = Some f /\ In f pf).
  { assert (O : (exists f, In ("default_input"%string, f) df) /\ (exists f, In ("default_output"%string, f) df) /\
      (forall k f, In (k, f) df -> In f pf)).
    { unfold function_init in HI. destruct (forallb _ pd); [|discriminate]. cbn [negb] in HI.
      destruct (zlist_eqb _ _); [|discriminate]. cbn [negb] in HI.
      destruct (existsb (fun kv => String.eqb (fst kv) "default_input") df) eqn:E1; [|discriminate].
      destruct (existsb (fun kv => String.eqb (fst kv) "default_output") df) eqn:E2; [|discriminate]. cbn in HI.
      destruct (forallb _ df) eqn:E3; [|discriminate].
      apply existsb_exists in E1, E2. destruct E1 as ([k1 f1] & I1 & Q1), E2 as ([k2 f2] & I2 & Q2).
      cbn in Q1, Q2. apply String.eqb_eq in Q1, Q2. subst. split; [eauto|]. split; [eauto|].
      rewrite forallb_forall in E3. intros k f Hin. specialize (E3 _ Hin). cbn in E3.
      apply existsb_exists in E3. destruct E3 as (x & Hx & E). apply String.eqb_eq in E. now subst. }
    destruct O as (O1 & O2 & O3). intros k Hk. unfold lookup.
    destruct (find (fun kv => String.eqb (fst kv) k) df) as [[k' f]|] eqn:F.
    - apply find_some in F. exists f. split; [reflexivity|]. eapply O3. apply F.
    - exfalso. assert (exists f, In (k, f) df) as [f Hf] by (destruct Hk as [->| ->]; assumption).
      eapply find_none in F; [|exact Hf]. cbn in F. rewrite String.eqb_refl in F. discriminate. }
  assert (MEM : forall f, existsb (String.eqb f) pf = true <-> In f pf).
  { intros f. rewrite existsb_exists. split.
    - intros (x & Hx & E). apply String.eqb_eq in E. now subst.
    - intros H. exists f. split; [exact H|apply String.eqb_refl]. }
  destruct (DF "default_input"%string (or_introl eq_refl)) as (fi & Li & Pi).
  destruct (DF "default_output"%string (or_intror eq_refl)) as (fo & Lo & Po).
  assert (R : r = let f0 := match fmt with None => match lookup df dflt with Some f => f | None => EmptyString end
                             | Some f => f end in
                  let f1 := if String.eqb f0 "default_input" then fi
                            else if String.eqb f0 "default_output" then fo else f0 in
                  if existsb (String.eqb f1) pf then Ok f1 else Err ValueError).
  { unfold r, resolve. rewrite Li, Lo. reflexivity. }
  clearbody r. cbv zeta in R. subst r.
  split; [|split].
  - intros f. destruct (existsb _ pf) eqn:E; [|discriminate]. intros [= <-]. now apply MEM.
  - intros H.
    assert (Z : forall f0, In f0 pf -> String.eqb f0 "default_input" = false /\ String.eqb f0 "default_output" = false).
    { intros f0 Hf. split; apply String.eqb_neq; intros ->; contradiction. }
    destruct (DF dflt Hd) as (fd & Ld & Pd). rewrite Ld.
    destruct H as [-> |[-> | ->]].
    + destruct (Z fd Pd) as [-> ->]. rewrite (proj2 (MEM fd) Pd). eauto.
    + rewrite String.eqb_refl. rewrite (proj2 (MEM fi) Pi). eauto.
    + change (String.eqb "default_output" "default_input") with false. cbv iota.
      rewrite String.eqb_refl, (proj2 (MEM fo) Po). eauto.
  - intros f -> N1 N2. rewrite (proj2 (String.eqb_neq _ _) N1), (proj2 (String.eqb_neq _ _) N2).
    destruct (in_dec string_dec f pf) as [Hin|Hin].
    + now rewrite (proj2 (MEM f) Hin).
    + destruct (existsb (String.eqb f) pf) eqn:E; [apply MEM in E; contradiction|reflexivity].
Qed.
Print Assumptions C21_format_names.

Example C21_function_nonvacuous :
  let pf := ["internal"; "pwa"; "mu_sigma_area"]%string in
  let df := [("default_input", "internal"); ("default_output", "pwa")]%string in
  function_init [(KStr "position", 0%Z); (KStr "width", 1%Z); (KStr "area", 2%Z)] pf df = Ok 3 /\
  function_init [(KStr "position", 0%Z); (KStr "width", 2%Z)] pf df = Err ValueError /\
  function_init [(KOther 7, 0%Z)] pf df = Err ValueError /\
  resolve df pf "default_output" (Some "default_input"%string) = Ok "internal"%string /\
  resolve df pf "default_output" None = Ok "pwa"%string /\
  resolve df pf "default_output" (Some "bogus"%string) = Err ValueError.
Proof. vm_compute. auto 10. Qed.

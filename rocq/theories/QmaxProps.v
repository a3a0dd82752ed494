(** Properties C159 and C160: find_qmax. *)
From Coq Require Import Reals Lra.
From Verif Require Import Prelude Evaluators Resample ResampleProps Qmax.
Open Scope R_scope.

(** ** Specification *)
(** The sine transform of the data interpolated on twice as many points: coefficient k. *)
Definition sine_coefficient (ys : list R) (k : nat) : R :=
  - fold_right Rplus 0 (map (fun j => nth j ys 0 * sin (2 * PI * INR j * INR k / INR (length ys))) (seq 0 (length ys))).
(** How much larger the spread of the first k+2 coefficients is than that of the next k+2. *)
Definition spread_ratio (spectrum : list R) (k : nat) : R := std (firstn (k + 2) spectrum) / std (firstn (k + 2) (skipn (k + 2) spectrum)).
(** How sharply the ratio bends down at k+1. *)
Definition bend (f : nat -> R) (k : nat) : R := 2 * f (k + 1)%nat - f k - f (k + 2)%nat.

Lemma sin_sum_spec N k : forall ys j0 off, (forall i, nth i ys 0 = nth (off + i) ys 0 \/ True) ->
  sin_sum N k j0 ys = fold_right Rplus 0 (map (fun j => nth j ys 0 * sin (2 * PI * INR (j0 + j) * INR k / INR N)) (seq 0 (length ys))).
Proof.
  induction ys as [|y ys IH]; intros j0 off _; [reflexivity|]. cbn [sin_sum length seq map fold_right nth]. rewrite Nat.add_0_r. f_equal.
  rewrite (IH (S j0) 0%nat) by auto. rewrite <- seq_shift, map_map. f_equal. apply map_ext. intros j. cbn [nth]. now rewrite Nat.add_succ_comm.
Qed.
Lemma fft_spec ys : fft_imag ys = map (sine_coefficient ys) (seq 0 (length ys)).
Proof. unfold fft_imag. apply map_ext. intros k. unfold sine_coefficient. f_equal. now rewrite (sin_sum_spec _ k ys 0%nat 0%nat) by auto. Qed.
Lemma linspace_len a b m : length (linspace a b m) = m.
Proof. unfold linspace. now rewrite map_length, seq_length. Qed.
Lemma linspace_nth a b m k : (k < m)%nat -> nth_error (linspace a b m) k = Some (a + INR k * ((b - a) / (INR m - 1))).
Proof. intros H. unfold linspace. rewrite nth_error_map, (nth_error_nth' _ 0%nat) by (now rewrite seq_length). now rewrite seq_nth by exact H. Qed.
Lemma linspace_last a b m : (2 <= m)%nat -> pyget (linspace a b m) (-1) = Ok b.
Proof.
  intros H. apply pyget_last. rewrite linspace_len, linspace_nth by lia. f_equal.
  assert (1 < INR m) by (apply (lt_INR 1); lia). rewrite minus_INR by lia. change (INR 1) with 1. field. lra.
Qed.
Lemma bends_cons a b c d : bends (a :: b :: c :: d) = - ((c - b) - (b - a)) :: bends (b :: c :: d).
Proof. reflexivity. Qed.
Lemma bends_len d : length (bends d) = (length d - 2)%nat.
Proof. induction d as [|a [|b [|c d]] IH]; try reflexivity. rewrite bends_cons. cbn [length] in *. rewrite IH. lia. Qed.
Lemma bends_nth d : forall k, (k + 2 < length d)%nat -> nth k (bends d) 0 = 2 * nth (k + 1) d 0 - nth k d 0 - nth (k + 2) d 0.
Proof.
  induction d as [|a [|b [|c d]] IH]; intros k H; try (cbn in H; lia). destruct k as [|k]; [cbn; lra|].
  rewrite bends_cons. transitivity (nth k (bends (b :: c :: d)) 0); [reflexivity|]. rewrite IH by (cbn [length] in *; lia). reflexivity.
Qed.
Lemma argmax_from_spec l : forall best bi i, (bi < i)%nat ->
  let a := argmax_from best bi i l in
  let v := fun j => if (j <? i)%nat then best else nth (j - i) l 0 in
  (a = bi \/ (i <= a < i + length l)%nat) /\ best <= (if (a =? bi)%nat then best else v a) /\
  (forall j, (i <= j < i + length l)%nat -> v j <= (if (a =? bi)%nat then best else v a)) /\
  (forall j, (i <= j < i + length l)%nat -> (j < a)%nat -> v j < (if (a =? bi)%nat then best else v a)) /\ (a <> bi -> best < v a).
Proof.
  induction l as [|x l IH]; intros best bi i H; cbn [argmax_from length].
  - rewrite Nat.eqb_refl. repeat split; auto; try lra; intros; try lia; congruence.
  - cbv zeta. destruct (Rlt_dec best x) as [L|L].
    + destruct (IH x i (S i) ltac:(lia)) as (A & Bd & C & D & E). set (a := argmax_from x i (S i) l) in *.
      assert (NE : a <> bi) by lia. assert (EB : (a =? bi)%nat = false) by (now apply Nat.eqb_neq). rewrite EB.
      assert (V : (if (a =? i)%nat then x else if (a <? S i)%nat then x else nth (a - S i) l 0) = (if (a <? i)%nat then best else nth (a - i) (x :: l) 0)).
      { destruct (Nat.ltb_spec a i); [lia|]. destruct (Nat.eqb_spec a i) as [->|]; [now rewrite Nat.sub_diag|]. destruct (Nat.ltb_spec a (S i)); [lia|]. replace (a - i)%nat with (S (a - S i)) by lia. reflexivity. }
      rewrite V in *. split; [right; lia|]. split; [lra|]. split; [|split].
      * intros j Hj. destruct (Nat.ltb_spec j i); [lia|]. destruct (Nat.eq_dec j i) as [->|]; [rewrite Nat.sub_diag; exact Bd|].
        specialize (C j ltac:(lia)). destruct (Nat.ltb_spec j (S i)); [lia|]. replace (j - i)%nat with (S (j - S i)) by lia. exact C.
      * intros j Hj La. destruct (Nat.ltb_spec j i); [lia|]. destruct (Nat.eq_dec j i) as [->|].
        -- rewrite Nat.sub_diag. cbn [nth]. assert (a <> i) as N1 by lia. specialize (E N1). destruct (Nat.ltb_spec a (S i)); [lia|]. destruct (Nat.ltb_spec a i); [lia|]. replace (a - i)%nat with (S (a - S i)) by lia. exact E.
        -- specialize (D j ltac:(lia) La). destruct (Nat.ltb_spec j (S i)); [lia|]. replace (j - i)%nat with (S (j - S i)) by lia. exact D.
      * intros _. lra.
    + destruct (IH best bi (S i) ltac:(lia)) as (A & Bd & C & D & E). set (a := argmax_from best bi (S i) l) in *.
      assert (V : a <> bi -> (if (a <? S i)%nat then best else nth (a - S i) l 0) = (if (a <? i)%nat then best else nth (a - i) (x :: l) 0)).
      { intros N. assert (S i <= a)%nat by lia. destruct (Nat.ltb_spec a (S i)); [lia|]. destruct (Nat.ltb_spec a i); [lia|]. replace (a - i)%nat with (S (a - S i)) by lia. reflexivity. }
      destruct (Nat.eqb_spec a bi) as [EQ|NE].
      * split; [now left|]. split; [lra|]. split; [|split; [|congruence]].
        -- intros j Hj. destruct (Nat.ltb_spec j i); [lia|]. destruct (Nat.eq_dec j i) as [->|]; [rewrite Nat.sub_diag; cbn [nth]; lra|]. specialize (C j ltac:(lia)). destruct (Nat.ltb_spec j (S i)); [lia|]. replace (j - i)%nat with (S (j - S i)) by lia. exact C.
        -- intros j Hj La. lia.
      * rewrite <- (V NE). split; [right; lia|]. split; [exact Bd|]. specialize (E NE). split; [|split; [|intros _; exact E]].
        -- intros j Hj. destruct (Nat.ltb_spec j i); [lia|]. destruct (Nat.eq_dec j i) as [->|]; [rewrite Nat.sub_diag; cbn [nth]; lra|]. specialize (C j ltac:(lia)). destruct (Nat.ltb_spec j (S i)); [lia|]. replace (j - i)%nat with (S (j - S i)) by lia. exact C.
        -- intros j Hj La. destruct (Nat.ltb_spec j i); [lia|]. destruct (Nat.eq_dec j i) as [->|]; [rewrite Nat.sub_diag; cbn [nth]; lra|]. specialize (D j ltac:(lia) La). destruct (Nat.ltb_spec j (S i)); [lia|]. replace (j - i)%nat with (S (j - S i)) by lia. exact D.
Qed.
Lemma argmax_spec l : l <> [] -> exists a, argmax l = Ok a /\ (a < length l)%nat /\ (forall j, (j < length l)%nat -> nth j l 0 <= nth a l 0) /\ (forall j, (j < a)%nat -> nth j l 0 < nth a l 0).
Proof.
  destruct l as [|x l]; [contradiction|]. intros _. exists (argmax_from x 0 1 l). split; [reflexivity|].
  destruct (argmax_from_spec l x 0%nat 1%nat ltac:(lia)) as (A & Bd & C & D & E). set (a := argmax_from x 0 1 l) in *. cbv zeta in *.
  assert (V : (if (a =? 0)%nat then x else if (a <? 1)%nat then x else nth (a - 1) l 0) = nth a (x :: l) 0).
  { destruct a as [|a]; [reflexivity|]. cbn [Nat.eqb Nat.ltb Nat.leb]. now rewrite Nat.sub_succ, Nat.sub_0_r. }
  rewrite V in *. cbn [length]. split; [lia|]. split.
  - intros [|j] Hj; [exact Bd|]. specialize (C (S j) ltac:(lia)). cbn [Nat.ltb Nat.leb] in C. rewrite Nat.sub_succ, Nat.sub_0_r in C. exact C.
  - intros [|j] Hj; [|specialize (D (S j) ltac:(lia) Hj); cbn [Nat.ltb Nat.leb] in D; rewrite Nat.sub_succ, Nat.sub_0_r in D; exact D].
    assert (N : a <> 0%nat) by lia. specialize (E N). destruct a as [|a]; [lia|]. cbn [Nat.ltb Nat.leb] in E. rewrite Nat.sub_succ, Nat.sub_0_r in E. exact E.
Qed.
(** The last maximum: argmax of the reversed list. *)
Lemma last_max l : l <> [] -> exists a, argmax (rev l) = Ok a /\ (a < length l)%nat /\
  let m := (length l - 1 - a)%nat in (forall j, (j < length l)%nat -> nth j l 0 <= nth m l 0) /\ (forall j, (m < j < length l)%nat -> nth j l 0 < nth m l 0).
Proof.
  intros N. destruct (argmax_spec (rev l)) as (a & E & L & MX & LT).
  { intros H. apply N. rewrite <- (rev_involutive l), H. reflexivity. }
  rewrite rev_length in *. exists a. split; [exact E|]. split; [exact L|]. cbv zeta.
  assert (RN : forall i, (i < length l)%nat -> nth i (rev l) 0 = nth (length l - 1 - i) l 0) by (intros i Hi; rewrite rev_nth by exact Hi; f_equal; lia).
  rewrite (RN a L) in MX, LT. split.
  - intros j Hj. specialize (MX (length l - 1 - j)%nat ltac:(lia)). rewrite RN in MX by lia. replace (length l - 1 - (length l - 1 - j))%nat with j in MX by lia. exact MX.
  - intros j Hj. specialize (LT (length l - 1 - j)%nat ltac:(lia)). rewrite RN in LT by lia. replace (length l - 1 - (length l - 1 - j))%nat with j in LT by lia. exact LT.
Qed.
Lemma all_finite_spec l : match all_finite l with
  | Some v => length v = length l /\ forall k, (k < length l)%nat -> nth_error l k = Some (Some (nth k v 0))
  | None => exists k, nth_error l k = Some None end.
Proof.
  induction l as [|[a|] l IH]; cbn [all_finite].
  - split; [reflexivity|]. intros k H. cbn in H. lia.
  - destruct (all_finite l) as [v|].
    + destruct IH as (L & F). split; [cbn; lia|]. intros [|k] H; [reflexivity|]. cbn in H |- *. apply F. lia.
    + destruct IH as (k & K). exists (S k). exact K.
  - exists 0%nat. reflexivity.
Qed.

(** ** C159 *)
Theorem C159_find_qmax :
  forall (r y : list R) (r0 rn : R),
    let n := length r in
    nth_error r 0 = Some r0 -> nth_error r (n - 1) = Some rn -> r0 < rn -> length y = n ->
    (n < 4 -> find_qmax r y = Err IndexError)%nat /\
    (4 <= n < 8 -> find_qmax r y = Err ValueError)%nat /\
    ((8 <= n)%nat -> exists new_y,
       resample r y (linspace r0 rn (2 * n)) = Ok new_y /\ length new_y = (2 * n)%nat /\
       let spectrum := map (sine_coefficient new_y) (seq 0 n) in
       match find_qmax r y with
       | Ok None => exists k, (k < n / 2 - 1)%nat /\ std (firstn (k + 2) (skipn (k + 2) spectrum)) = 0
       | Ok (Some (qmax, dq)) => exists m,
           (2 <= m <= n / 2 - 2)%nat /\ qmax = 2 * PI * INR m / (rn - r0) /\ dq = 2 * PI / (rn - r0) /\
           (forall k, (k < n / 2 - 1)%nat -> std (firstn (k + 2) (skipn (k + 2) spectrum)) <> 0) /\
           (forall j, (2 <= j <= n / 2 - 2)%nat -> bend (spread_ratio spectrum) (j - 2) <= bend (spread_ratio spectrum) (m - 2)) /\
           (forall j, (m < j <= n / 2 - 2)%nat -> bend (spread_ratio spectrum) (j - 2) < bend (spread_ratio spectrum) (m - 2)) /\
           0 < qmax < PI * (INR n - 1) / (rn - r0)
       | Err _ => False
       end).
Proof.
  intros r y r0 rn n H0 Hn LT LY.
  assert (N1 : (1 < n)%nat).
  { destruct (Nat.le_gt_cases n 1) as [C|]; [|assumption]. exfalso. assert (Z : (n - 1)%nat = 0%nat) by lia. rewrite Z, H0 in Hn. injection Hn as E. lra. }
  assert (P0 : pyget r 0 = Ok r0) by (change 0%Z with (Z.of_nat 0); now apply pyget_ok).
  assert (Pn : pyget r (-1) = Ok rn) by (now apply pyget_last).
  assert (NR : 1 < INR n) by (apply (lt_INR 1); lia).
  assert (R2 : INR (2 * n) = 2 * INR n) by (rewrite mult_INR; reflexivity).
  set (new_r := linspace r0 rn (2 * n)).
  assert (LR : length new_r = (2 * n)%nat) by apply linspace_len.
  assert (RS : exists new_y, resample r y new_r = Ok new_y /\ length new_y = (2 * n)%nat).
  { unfold resample. rewrite P0, Pn. cbn [bind]. fold n. destruct (Nat.eqb_spec n 1); [lia|].
    assert (NN : nth_error new_r 0 = Some (r0 + INR 0 * ((rn - r0) / (INR (2 * n) - 1)))) by (apply linspace_nth; lia).
    change 0%Z with (Z.of_nat 0). rewrite (pyget_ok _ _ _ NN). cbn [bind]. eexists. split; [reflexivity|]. now rewrite map_length. }
  destruct RS as (new_y & RS & LN).
  set (spectrum := map (sine_coefficient new_y) (seq 0 n)).
  assert (SP : firstn (length new_y / 2) (fft_imag new_y) = spectrum).
  { rewrite fft_spec, LN. replace (2 * n / 2)%nat with n by (rewrite Nat.mul_comm, Nat.div_mul; lia).
    rewrite firstn_map. unfold spectrum. f_equal. replace (2 * n)%nat with (n + n)%nat by lia. rewrite seq_app, firstn_app, seq_length, Nat.sub_diag. cbn [firstn]. rewrite app_nil_r. now rewrite firstn_all2 by (rewrite seq_length; lia). }
  assert (LS : length spectrum = n) by (unfold spectrum; now rewrite map_length, seq_length).
  assert (RUN : find_qmax r y = (do d_ratio <- stdratio spectrum;
     if (length d_ratio <? 3)%nat then Err ValueError else
     match all_finite d_ratio with
     | None => Ok None
     | Some d => do a <- argmax (rev (bends d)); Ok (Some (2 * PI / (rn - r0) * INR (length (bends d) - a + 1), 2 * PI / (rn - r0)))
     end)).
  { unfold find_qmax. fold n. rewrite LY, Nat.eqb_refl. cbn [negb]. rewrite P0, Pn. cbn [bind]. destruct (Nat.eqb_spec n 1); [lia|].
    fold new_r. rewrite RS. cbn [bind]. unfold new_r at 1. rewrite linspace_last by lia. cbn [bind]. rewrite SP, LR, LN, R2.
    destruct (stdratio spectrum) as [dr|]; [cbn [bind]|reflexivity]. destruct (length dr <? 3)%nat; [reflexivity|]. destruct (all_finite dr); [|reflexivity].
    destruct (argmax (rev (bends l))); cbn [bind]; [|reflexivity].
    replace ((2 * INR n - 1) * ((rn - r0) / (2 * INR n - 1))) with (rn - r0) by (field; lra).
    replace ((INR n - 1) * ((rn - r0) / (INR n - 1))) with (rn - r0) by (field; lra). reflexivity. }
  destruct (C53_stdratio spectrum) as (S1 & S2). rewrite LS in S1, S2.
  split; [|split].
  - intros L. rewrite RUN, (S1 L). reflexivity.
  - intros L. destruct (S2 ltac:(lia)) as (out & E & LO & _). rewrite RUN, E. cbn [bind].
    assert (n / 2 < 4)%nat by (apply Nat.div_lt_upper_bound; lia). destruct (Nat.ltb_spec (length out) 3); [reflexivity|lia].
  - intros L. exists new_y. split; [exact RS|]. split; [exact LN|]. cbv zeta. fold spectrum.
    destruct (S2 ltac:(lia)) as (out & E & LO & F). rewrite RUN, E. cbn [bind].
    assert (HN : (4 <= n / 2)%nat) by (apply Nat.div_le_lower_bound; lia).
    assert (H2 : (2 * (n / 2) <= n)%nat) by (apply Nat.mul_div_le; lia).
    destruct (Nat.ltb_spec (length out) 3); [lia|].
    pose proof (all_finite_spec out) as AF. destruct (all_finite out) as [d|].
    + destruct AF as (LD & AF). rewrite LO in LD, AF.
      assert (DV : forall k, (k < n / 2 - 1)%nat -> std (firstn (k + 2) (skipn (k + 2) spectrum)) <> 0 /\ nth k d 0 = spread_ratio spectrum k).
      { intros k Hk. specialize (F k Hk). cbv zeta in F. destruct F as (_ & _ & F). rewrite (AF k Hk) in F. unfold spread_ratio.
        destruct (Req_EM_T (std (firstn (k + 2) (skipn (k + 2) spectrum))) 0); [discriminate|]. injection F as F. split; assumption. }
      assert (LB : length (bends d) = (n / 2 - 3)%nat) by (rewrite bends_len; lia).
      assert (BN : forall j, (2 <= j <= n / 2 - 2)%nat -> nth (j - 2) (bends d) 0 = bend (spread_ratio spectrum) (j - 2)).
      { intros j Hj. rewrite bends_nth by lia. unfold bend. rewrite !(fun k H => proj2 (DV k H)) by lia. reflexivity. }
      destruct (last_max (bends d)) as (a & EA & LA & MX & LM). { intros C. rewrite C in LB. cbn [length] in LB. lia. }
      rewrite EA. cbn [bind]. rewrite LB in *. set (m := (n / 2 - 3 - a + 1)%nat).
      assert (MM : (n / 2 - 3 - 1 - a = m - 2)%nat) by (unfold m; lia). rewrite MM in MX, LM.
      assert (MR : (2 <= m <= n / 2 - 2)%nat) by (unfold m; lia). clearbody m.
      exists m. split; [exact MR|]. split; [field; lra|]. split; [reflexivity|]. split; [intros k Hk; apply (DV k Hk)|].
      split; [|split].
      * intros j Hj. rewrite <- !BN by lia. apply MX. lia.
      * intros j Hj. rewrite <- !BN by lia. apply LM. lia.
      * assert (MB : 2 * INR m < INR n - 1). { change 2 with (INR 2). rewrite <- mult_INR. change 1 with (INR 1). rewrite <- minus_INR by lia. apply lt_INR. lia. }
        assert (MP : 2 <= INR m) by (apply (le_INR 2); lia). pose proof PI_RGT_0.
        assert (IV : 0 < / (rn - r0)) by (apply Rinv_0_lt_compat; lra). split.
        -- unfold Rdiv. apply Rmult_lt_0_compat; [|lra]. apply Rmult_lt_0_compat; [|lra]. apply Rmult_lt_0_compat; lra.
        -- replace (2 * PI / (rn - r0) * INR m) with (PI * (2 * INR m) * / (rn - r0)) by (field; lra). unfold Rdiv. apply Rmult_lt_compat_r; [exact IV|]. apply Rmult_lt_compat_l; assumption.
    + destruct AF as (k & AF). exists k. assert (Hk : (k < length out)%nat) by (apply nth_error_Some; congruence). rewrite LO in Hk. split; [exact Hk|].
      specialize (F k Hk). cbv zeta in F. destruct F as (_ & _ & F). rewrite AF in F.
      destruct (Req_EM_T (std (firstn (k + 2) (skipn (k + 2) spectrum))) 0); [assumption|discriminate].
Qed.
Theorem C159_lengths : forall r y, length r <> length y -> find_qmax r y = Err ValueError.
Proof. intros r y H. unfold find_qmax. now rewrite (proj2 (Nat.eqb_neq _ _) H). Qed.
Theorem C159_one_point : forall a b, find_qmax [a] [b] = Err IndexError.
Proof. reflexivity. Qed.
Theorem C159_empty : find_qmax [] [] = Err IndexError.
Proof. reflexivity. Qed.
(** ** A concrete PDF for which a qmax is found: eight points, a unit impulse at r = 0. *)
Section Impulse.
Let U (j : nat) : R := sin (7 * PI * INR j / 15).
Definition imp_y := map (fun j => sinc (7 * INR j / 15)) (seq 0 16).
Definition imp_r : list R := [0; 1; 2; 3; 4; 5; 6; 7].
Definition imp_data : list R := [1; 0; 0; 0; 0; 0; 0; 0].
Lemma imp_resample : resample imp_r imp_data (linspace 0 7 (2 * 8)) = Ok imp_y.
Proof.
  unfold resample. change (pyget imp_r 0) with (Ok 0). change (pyget imp_r (-1)) with (Ok 7). cbn [bind]. change (length imp_r =? 1)%nat with false. cbv iota.
  change (length imp_r) with 8%nat.
  assert (E : (7 - 0) / (INR 8 - 1) = 1) by (cbn [INR]; field; lra). rewrite E.
  change (pyget (linspace 0 7 (2 * 8)) 0) with (Ok (0 + INR 0 * ((7 - 0) / (INR 16 - 1)))). cbn [bind]. f_equal.
  unfold linspace, imp_y. change (2 * 8)%nat with 16%nat. rewrite map_map. apply map_ext. intros j.
  assert (I16 : INR 16 = 16) by (cbn [INR]; lra). rewrite I16.
  unfold imp_data. cbn [sinc_sum]. change (INR 0) with 0.
  match goal with |- 1 * sinc ?x + _ = sinc ?z => assert (EX : x = z) by field; rewrite EX end. lra.
Qed.
Lemma sin_two_pi_minus (k : nat) x : sin (2 * INR k * PI - x) = - sin x.
Proof. replace (2 * INR k * PI - x) with (- x + 2 * INR k * PI) by lra. rewrite sin_period. apply sin_neg. Qed.
Lemma imp_term j k : (1 <= j <= 7)%nat ->
  nth j imp_y 0 * sin (2 * PI * INR j * INR k / INR 16) + nth (16 - j) imp_y 0 * sin (2 * PI * INR (16 - j) * INR k / INR 16)
  = 15 / (7 * PI) * (sin (PI * INR (j * k) / 8) * (U j / INR j - U (j - 1) / INR (16 - j))).
Proof.
  intros Hj. pose proof PI_RGT_0 as PP.
  assert (I16 : INR 16 = 16) by (cbn [INR]; lra). rewrite I16.
  assert (J : INR (16 - j) = 16 - INR j) by (rewrite minus_INR by lia; now rewrite I16).
  assert (J1 : INR (j - 1) = INR j - 1) by (rewrite minus_INR by lia; reflexivity).
  assert (JB : 1 <= INR j <= 7) by (split; [apply (le_INR 1); lia|replace 7 with (INR 7) by (cbn [INR]; lra); apply le_INR; lia]).
  assert (NY : forall i, (i < 16)%nat -> nth i imp_y 0 = sinc (7 * INR i / 15)).
  { intros i Hi. unfold imp_y. rewrite nth_indep with (d' := sinc (7 * INR 0 / 15)) by (rewrite map_length, seq_length; lia).
    rewrite (map_nth (fun j => sinc (7 * INR j / 15))), seq_nth by lia. reflexivity. }
  rewrite !NY by lia. rewrite J.
  assert (S1 : sin (2 * PI * INR j * INR k / 16) = sin (PI * INR (j * k) / 8)) by (f_equal; rewrite mult_INR; field).
  assert (S2 : sin (2 * PI * (16 - INR j) * INR k / 16) = - sin (PI * INR (j * k) / 8)).
  { rewrite <- (sin_two_pi_minus k). f_equal. rewrite mult_INR. field. }
  rewrite S1, S2.
  assert (V1 : sinc (7 * INR j / 15) = 15 / (7 * PI) * (U j / INR j)).
  { unfold sinc. destruct (Req_EM_T (7 * INR j / 15) 0); [lra|]. unfold U. replace (PI * (7 * INR j / 15)) with (7 * PI * INR j / 15) by field. field. split; lra. }
  assert (V2 : sinc (7 * (16 - INR j) / 15) = 15 / (7 * PI) * (U (j - 1) / (16 - INR j))).
  { unfold sinc. destruct (Req_EM_T (7 * (16 - INR j) / 15) 0); [lra|]. unfold U. rewrite J1.
    assert (E : sin (PI * (7 * (16 - INR j) / 15)) = sin (7 * PI * (INR j - 1) / 15)).
    { replace (PI * (7 * (16 - INR j) / 15)) with (PI - 7 * PI * (INR j - 1) / 15 + 2 * INR 3 * PI) by (cbn [INR]; field). rewrite sin_period. apply sin_PI_x. }
    rewrite E. field. split; lra. }
  rewrite V1, V2. ring.
Qed.
Let C (k : nat) : R := fold_right Rplus 0 (map (fun j => sin (PI * INR (j * k) / 8) * (U j / INR j - U (j - 1) / INR (16 - j))) (seq 1 7)).
Lemma imp_coeff k : sine_coefficient imp_y k = - (15 / (7 * PI)) * C k.
Proof.
  unfold sine_coefficient. assert (L : length imp_y = 16%nat) by (unfold imp_y; now rewrite map_length, seq_length). rewrite L.
  unfold C. cbn [seq map fold_right].
  pose proof (imp_term 1 k ltac:(lia)) as T1. pose proof (imp_term 2 k ltac:(lia)) as T2. pose proof (imp_term 3 k ltac:(lia)) as T3. pose proof (imp_term 4 k ltac:(lia)) as T4.
  pose proof (imp_term 5 k ltac:(lia)) as T5. pose proof (imp_term 6 k ltac:(lia)) as T6. pose proof (imp_term 7 k ltac:(lia)) as T7.
  assert (T0 : sin (2 * PI * INR 0 * INR k / INR 16) = 0).
  { change (INR 0) with 0. replace (2 * PI * 0 * INR k / INR 16) with 0 by (unfold Rdiv; ring). apply sin_0. }
  assert (T8 : sin (2 * PI * INR 8 * INR k / INR 16) = 0).
  { replace (2 * PI * INR 8 * INR k / INR 16) with (INR k * PI) by (cbn [INR]; field). apply sin_eq_0_1. exists (Z.of_nat k). now rewrite INR_IZR_INZ. }
  rewrite T0, T8. cbn [Nat.sub] in T1, T2, T3, T4, T5, T6, T7. cbn [Nat.sub].
  transitivity (- ((nth 1 imp_y 0 * sin (2 * PI * INR 1 * INR k / INR 16) + nth 15 imp_y 0 * sin (2 * PI * INR 15 * INR k / INR 16))
    + (nth 2 imp_y 0 * sin (2 * PI * INR 2 * INR k / INR 16) + nth 14 imp_y 0 * sin (2 * PI * INR 14 * INR k / INR 16))
    + (nth 3 imp_y 0 * sin (2 * PI * INR 3 * INR k / INR 16) + nth 13 imp_y 0 * sin (2 * PI * INR 13 * INR k / INR 16))
    + (nth 4 imp_y 0 * sin (2 * PI * INR 4 * INR k / INR 16) + nth 12 imp_y 0 * sin (2 * PI * INR 12 * INR k / INR 16))
    + (nth 5 imp_y 0 * sin (2 * PI * INR 5 * INR k / INR 16) + nth 11 imp_y 0 * sin (2 * PI * INR 11 * INR k / INR 16))
    + (nth 6 imp_y 0 * sin (2 * PI * INR 6 * INR k / INR 16) + nth 10 imp_y 0 * sin (2 * PI * INR 10 * INR k / INR 16))
    + (nth 7 imp_y 0 * sin (2 * PI * INR 7 * INR k / INR 16) + nth 9 imp_y 0 * sin (2 * PI * INR 9 * INR k / INR 16)))); [ring|].
  rewrite T1, T2, T3, T4, T5, T6, T7. ring.
Qed.
Let s := sin (PI / 8). Let c := sin (3 * PI / 8). Let q := sin (PI / 4).
Definition sin8 (m : nat) : R := nth (m mod 16) [0; s; q; c; 1; c; q; s; 0; - s; - q; - c; - (1); - c; - q; - s] 0.
Lemma sin8_eq m : sin (PI * INR m / 8) = sin8 m.
Proof.
  unfold sin8. assert (E : m = (16 * (m / 16) + m mod 16)%nat) by (apply Nat.div_mod; lia).
  assert (L : (m mod 16 < 16)%nat) by (apply Nat.mod_upper_bound; lia).
  set (a := (m mod 16)%nat) in *. set (b := (m / 16)%nat) in *. clearbody a b. subst m.
  rewrite plus_INR, mult_INR. replace (PI * (INR 16 * INR b + INR a) / 8) with (PI * INR a / 8 + 2 * INR b * PI) by (cbn [INR]; field). rewrite sin_period. clear b.
  assert (P : forall x y, x = PI - y -> sin x = sin y) by (intros x y ->; apply sin_PI_x).
  assert (N : forall x y, x = y + PI -> sin x = - sin y) by (intros x y ->; apply neg_sin).
  assert (N2 : forall x y, x = 2 * PI - y -> sin x = - sin y) by (intros x y ->; replace (2 * PI - y) with (- y + 2 * INR 1 * PI) by (cbn [INR]; ring); rewrite sin_period; apply sin_neg).
  assert (A16 : In a (seq 0 16)) by (apply in_seq; lia). cbn [seq] in A16. clear L. repeat destruct A16 as [<-|A16]; try contradiction; cbn [nth]; unfold s, c, q; cbn [INR].
  - replace (PI * 0 / 8) with 0 by field. apply sin_0.
  - f_equal; field.
  - f_equal; field.
  - f_equal; field.
  - replace (PI * (1 + 1 + 1 + 1) / 8) with (PI / 2) by field. apply sin_PI2.
  - apply P; field.
  - apply P; field.
  - apply P; field.
  - replace (PI * (1 + 1 + 1 + 1 + 1 + 1 + 1 + 1) / 8) with PI by field. apply sin_PI.
  - apply N; field.
  - apply N; field.
  - apply N; field.
  - transitivity (- sin (PI / 2)); [apply N; field|now rewrite sin_PI2].
  - apply N2; field.
  - apply N2; field.
  - apply N2; field.
Qed.
Let d (m : R) : R := sin (m * PI / 15).
Lemma U_vals : U 0 = 0 /\ U 1 = d 7 /\ U 2 = d 1 /\ U 3 = - d 6 /\ U 4 = - d 2 /\ U 5 = d 5 /\ U 6 = d 3 /\ U 7 = - d 4.
Proof.
  assert (P : forall x y, x = PI - y -> sin x = sin y) by (intros x y ->; apply sin_PI_x).
  assert (N : forall x y, x = y + PI -> sin x = - sin y) by (intros x y ->; apply neg_sin).
  assert (N2 : forall x y, x = 2 * PI - y -> sin x = - sin y) by (intros x y ->; replace (2 * PI - y) with (- y + 2 * INR 1 * PI) by (cbn [INR]; ring); rewrite sin_period; apply sin_neg).
  assert (T : forall x y, x = y + 2 * PI -> sin x = sin y) by (intros x y ->; replace (y + 2 * PI) with (y + 2 * INR 1 * PI) by (cbn [INR]; ring); apply sin_period).
  unfold U, d. cbn [INR]. repeat split.
  - replace (7 * PI * 0 / 15) with 0 by field. apply sin_0.
  - f_equal; field.
  - apply P; field.
  - apply N; field.
  - apply N2; field.
  - apply T; field.
  - rewrite <- (sin_PI_x (3 * PI / 15)). apply T; field.
  - rewrite <- neg_sin. apply T. field.
Qed.
Lemma numbers : 0.7071 <= q <= 0.7072 /\ 0.3826 <= s <= 0.3828 /\ 0.9238 <= c <= 0.9240 /\
  0 <= d 1 <= 0.5 /\ 0 <= d 2 <= 0.5 /\ 0.5 <= d 3 <= 0.7072 /\ 0.7071 <= d 4 <= 0.8661 /\ d 5 <= 0.8661 /\ 0.866 <= d 5 /\ 0.866 <= d 6 <= 1 /\ 0.866 <= d 7 <= 1.
Proof.
  pose proof PI_RGT_0 as PP.
  assert (Q2 : q * q = 0.5). { unfold q. pose proof (sin2_cos2 (PI / 4)) as H. rewrite <- sin_cos_PI4 in H. unfold Rsqr in H. lra. }
  assert (Q0 : 0 < q) by (apply sin_gt_0; lra).
  assert (Q : 0.7071 <= q <= 0.7072) by (split; nra).
  assert (S0 : 0 < s) by (apply sin_gt_0; lra). assert (C0 : 0 < c) by (apply sin_gt_0; lra).
  assert (SC : c = cos (PI / 8)). { unfold c. rewrite <- sin_shift. f_equal. field. }
  assert (A : s * s + c * c = 1). { rewrite SC. exact (sin2_cos2 (PI / 8)). }
  assert (D : c * c - s * s = q). { rewrite SC. unfold s, q. rewrite <- cos_2a. replace (2 * (PI / 8)) with (PI / 4) by field. symmetry. apply sin_cos_PI4. }
  assert (S : 0.3826 <= s <= 0.3828) by (split; nra). assert (Cc : 0.9238 <= c <= 0.9240) by (split; nra).
  assert (R3 : d 5 * d 5 = 0.75). { unfold d. replace (5 * PI / 15) with (PI / 3) by field. rewrite sin_PI3. assert (sqrt 3 * sqrt 3 = 3) by (apply sqrt_sqrt; lra). lra. }
  assert (D0 : 0 < d 5) by (unfold d; apply sin_gt_0; lra).
  assert (D5 : 0.866 <= d 5 <= 0.8661) by (split; nra).
  assert (H6 : sin (PI / 6) = 0.5) by (rewrite sin_PI6; lra).
  assert (M : forall x y, - (PI / 2) <= x -> y <= PI / 2 -> x <= y -> sin x <= sin y) by (intros; apply sin_incr_1; lra).
  assert (B : forall x, sin x <= 1) by (intros; apply SIN_bound).
  unfold q in *. unfold d in *. repeat split; try lra; try apply B.
  - apply sin_ge_0; lra.
  - rewrite <- H6. apply M; lra.
  - apply sin_ge_0; lra.
  - rewrite <- H6. apply M; lra.
  - rewrite <- H6. apply M; lra.
  - eapply Rle_trans; [apply (M _ (PI / 4)); lra|lra].
  - eapply Rle_trans; [|apply (M (PI / 4)); lra]; lra.
  - eapply Rle_trans; [apply (M _ (5 * PI / 15)); lra|lra].
  - eapply Rle_trans; [|apply (M (5 * PI / 15)); lra]; lra.
  - eapply Rle_trans; [|apply (M (5 * PI / 15)); lra]; lra.
Qed.
Lemma pos_term g gl u ul : 0 <= gl <= g -> 0 <= ul <= u -> gl * ul <= g * u. Proof. intros. nra. Qed.
Lemma neg_term g gl u uh : gl <= g -> gl <= 0 -> 0 <= u <= uh -> gl * uh <= g * u. Proof. intros. nra. Qed.
Lemma imp_C k : C k = sin8 k * (d 7)
  + sin8 (2 * k) * (d 1 / 2 - d 7 / 14)
  + sin8 (3 * k) * (- d 6 / 3 - d 1 / 13)
  + sin8 (4 * k) * (- d 2 / 4 + d 6 / 12)
  + sin8 (5 * k) * (d 5 / 5 + d 2 / 11)
  + sin8 (6 * k) * (d 3 / 6 - d 5 / 10)
  + sin8 (7 * k) * (- d 4 / 7 - d 3 / 9).
Proof.
  unfold C. destruct U_vals as (U0 & U1 & U2 & U3 & U4 & U5 & U6 & U7). cbn [seq map fold_right Nat.sub]. rewrite U0, U1, U2, U3, U4, U5, U6, U7, !sin8_eq.
  replace (1 * k)%nat with k by lia. cbn [INR]. field.
Qed.

Lemma C45 : C 5 < C 4.
Proof.
  rewrite !imp_C. unfold sin8. cbn [Nat.mul Nat.add Nat.modulo Nat.divmod fst snd Nat.sub nth].
  destruct numbers as (Q & S & Cc & D1 & D2 & D3 & D4 & D5 & D5' & D6 & D7).
  clearbody s c q. set (d1 := d 1) in *. set (d2 := d 2) in *. set (d3 := d 3) in *. set (d4 := d 4) in *. set (d5 := d 5) in *. set (d6 := d 6) in *. set (d7 := d 7) in *. clearbody d1 d2 d3 d4 d5 d6 d7.
  pose proof (pos_term ((1 - c) - q / 14) 0 d7 0 ltac:(lra) ltac:(lra)) as E7.
  pose proof (pos_term (q / 2 - (-1 + s) / 13) 0 d1 0 ltac:(lra) ltac:(lra)) as E1.
  pose proof (pos_term (- (-1 + s) / 3 - 1 / 12) 0 d6 0 ltac:(lra) ltac:(lra)) as E6.
  pose proof (pos_term (1 / 4 + (1 + s) / 11) 0 d2 0 ltac:(lra) ltac:(lra)) as E2.
  pose proof (pos_term ((1 + s) / 5 - q / 10) 0 d5 0 ltac:(lra) ltac:(lra)) as E5.
  pose proof (pos_term (q / 6 - (-1 - c) / 9) 0 d3 0 ltac:(lra) ltac:(lra)) as E3.
  pose proof (pos_term ((1 + c) / 7) 0.2 d4 0.7 ltac:(lra) ltac:(lra)) as E4.
  lra.
Qed.
Lemma C32 : C 2 < C 3.
Proof.
  rewrite !imp_C. unfold sin8. cbn [Nat.mul Nat.add Nat.modulo Nat.divmod fst snd Nat.sub nth].
  destruct numbers as (Q & S & Cc & D1 & D2 & D3 & D4 & D5 & D5' & D6 & D7).
  clearbody s c q. set (d1 := d 1) in *. set (d2 := d 2) in *. set (d3 := d 3) in *. set (d4 := d 4) in *. set (d5 := d 5) in *. set (d6 := d 6) in *. set (d7 := d 7) in *. clearbody d1 d2 d3 d4 d5 d6 d7.
  pose proof (pos_term ((c - q) - (q - 1) / 14) 0.23 d7 0.866 ltac:(lra) ltac:(lra)) as E7.
  pose proof (neg_term ((q - 1) / 2 - (- s - q) / 13) (-0.07) d1 0.5 ltac:(lra) ltac:(lra) ltac:(lra)) as E1.
  pose proof (pos_term ((s + q) / 3 - 1 / 12) 0.27 d6 0.866 ltac:(lra) ltac:(lra)) as E6.
  pose proof (pos_term (1 / 4 + (q - s) / 11) 0 d2 0 ltac:(lra) ltac:(lra)) as E2.
  pose proof (neg_term ((q - s) / 5 - (q + 1) / 10) (-0.11) d5 0.8661 ltac:(lra) ltac:(lra) ltac:(lra)) as E5.
  pose proof (pos_term ((q + 1) / 6 - (c + q) / 9) 0.1 d3 0.5 ltac:(lra) ltac:(lra)) as E3.
  pose proof (neg_term (- (c + q) / 7) (-0.24) d4 0.8661 ltac:(lra) ltac:(lra) ltac:(lra)) as E4.
  lra.
Qed.
Lemma imp_differ : sine_coefficient imp_y 4 <> sine_coefficient imp_y 5 /\ sine_coefficient imp_y 2 <> sine_coefficient imp_y 3.
Proof.
  rewrite !imp_coeff. pose proof C45. pose proof C32. pose proof PI_RGT_0.
  assert (K : 0 < 15 / (7 * PI)) by (apply Rdiv_lt_0_compat; lra). set (k := 15 / (7 * PI)) in *. clearbody k. clearbody C. split; intros E; apply Rmult_eq_reg_l in E; lra.
Qed.
End Impulse.
Lemma sum_sq_zero (m : R) l : fold_right Rplus 0 (map (fun v => (v - m) ^ 2) l) <= 0 -> forall v, In v l -> v = m.
Proof.
  induction l as [|a l IH]; intros H v HV; [destruct HV|]. cbn [map fold_right] in H.
  assert (NN : forall l', 0 <= fold_right Rplus 0 (map (fun v => (v - m) ^ 2) l')) by (induction l' as [|x l' IL]; cbn [map fold_right]; [lra|pose proof (pow2_ge_0 (x - m)); lra]).
  pose proof (NN l). pose proof (pow2_ge_0 (a - m)) as P. destruct HV as [<-|HV]; [|apply IH; [lra|exact HV]].
  assert (Z : (a - m) ^ 2 = 0) by lra. assert (a - m = 0) by (apply Rsqr_0_uniq; unfold Rsqr; lra). lra.
Qed.

Lemma std_nonzero l a b : In a l -> In b l -> a <> b -> std l <> 0.
Proof.
  intros HA HB N E. assert (L : 0 < INR (length l)) by (destruct l; [destruct HA|]; apply lt_0_INR; cbn; lia).
  unfold std in E. apply sqrt_eq_0 in E.
  - assert (Z : Rsum (map (fun v => (v - mean l) ^ 2) l) = 0).
    { apply (Rmult_eq_reg_r (/ INR (length l))); [|apply Rgt_not_eq; now apply Rinv_0_lt_compat]. unfold Rdiv in E. lra. }
    unfold Rsum in Z. assert (X := sum_sq_zero (mean l) l ltac:(lra)). rewrite (X a HA), (X b HB) in N. now apply N.
  - apply Rmult_le_pos; [|apply Rlt_le; now apply Rinv_0_lt_compat]. unfold Rsum.
    clear E HA HB L. generalize (mean l). intros m. induction l as [|x l IH]; cbn [map fold_right]; [lra|]. pose proof (pow2_ge_0 (x - m)). lra.
Qed.
(** A qmax is found for the impulse. *)
Theorem C159_example : exists qmax, find_qmax imp_r imp_data = Ok (Some (qmax, 2 * PI / 7)) /\ qmax = 2 * (2 * PI / 7).
Proof.
  destruct (C159_find_qmax imp_r imp_data 0 7 eq_refl eq_refl ltac:(lra) eq_refl) as (_ & _ & H). cbv zeta in H.
  change (length imp_r) with 8%nat in H. specialize (H ltac:(lia)). destruct H as (ny & RS & _ & H).
  pose proof imp_resample as IR. assert (X : forall a b : list R, Ok a = Ok b -> a = b) by congruence. assert (Y : imp_y = ny) by (apply X; rewrite <- IR; exact RS). destruct imp_differ as (N45 & N23). rewrite Y in N45, N23.
  destruct (find_qmax imp_r imp_data) as [[[qm dq]|]|] eqn:E; [| |contradiction].
  - destruct H as (m & Hm & EQ & ED & _). change (8 / 2 - 2)%nat with 2%nat in Hm. assert (m = 2%nat) as -> by lia. exists qm. rewrite EQ, ED, Rminus_0_r. split; [reflexivity|]. cbn [INR]. field.
  - exfalso. destruct H as (k & Hk & Z). change (8 / 2 - 1)%nat with 3%nat in Hk. revert Z.
    assert (HS : In k [0; 1; 2]%nat) by (cbn [In]; lia). destruct HS as [<-|[<-|[<-|[]]]]; cbn [Nat.add seq map firstn skipn].
    + apply (std_nonzero _ (sine_coefficient ny 2) (sine_coefficient ny 3)); [cbn; tauto|cbn; tauto|exact N23].
    + apply (std_nonzero _ (sine_coefficient ny 4) (sine_coefficient ny 5)); [cbn; tauto|cbn; tauto|exact N45].
    + apply (std_nonzero _ (sine_coefficient ny 4) (sine_coefficient ny 5)); [cbn; tauto|cbn; tauto|exact N45].
Qed.
(** ** C160: the frequency of the coefficient chosen *)
(** The sine transform of values [ys] at points [xs] (measured from [x0]) at frequency [Q]. *)
Definition sine_transform (x0 : R) (xs ys : list R) (Q : R) : R :=
  - fold_right Rplus 0 (map (fun p => snd p * sin (Q * (fst p - x0))) (combine xs ys)).
Lemma map_combine_seq (f : R * R -> R) xs : forall ys, length xs = length ys ->
  map f (combine xs ys) = map (fun j => f (nth j xs 0, nth j ys 0)) (seq 0 (length ys)).
Proof.
  induction xs as [|x xs IH]; intros [|y ys] L; try discriminate; [reflexivity|]. cbn [combine map length seq nth]. f_equal.
  rewrite IH by (cbn in L; lia). rewrite <- seq_shift, map_map. reflexivity.
Qed.
Theorem C160_frequency :
  forall (r y : list R) (r0 rn qmax dq : R),
    let n := length r in
    nth_error r 0 = Some r0 -> nth_error r (n - 1) = Some rn -> r0 < rn -> length y = n ->
    find_qmax r y = Ok (Some (qmax, dq)) ->
    exists new_y m Q,
      resample r y (linspace r0 rn (2 * n)) = Ok new_y /\ (2 <= m <= n / 2 - 2)%nat /\
      (forall j, (2 <= j <= n / 2 - 2)%nat -> let spectrum := map (sine_coefficient new_y) (seq 0 n) in bend (spread_ratio spectrum) (j - 2) <= bend (spread_ratio spectrum) (m - 2)) /\
      (* the m-th coefficient is the sine transform at Q *)
      sine_coefficient new_y m = sine_transform r0 (linspace r0 rn (2 * n)) new_y Q /\
      (* Q is below the limit of that grid: it is not an alias of another frequency *)
      (0 < Q < PI / ((rn - r0) / (2 * INR n - 1))) /\
      qmax <> Q /\ Rabs (qmax - Q) < dq / 4.
Proof.
  intros r y r0 rn qmax dq n H0 Hn LT LY E.
  assert (N8 : (8 <= n)%nat).
  { destruct (C159_find_qmax r y r0 rn H0 Hn LT LY) as (A & B & _). fold n in A, B. destruct (Nat.le_gt_cases 8 n); [assumption|]. destruct (Nat.le_gt_cases 4 n); [rewrite B in E by lia|rewrite A in E by lia]; discriminate. }
  destruct (C159_find_qmax r y r0 rn H0 Hn LT LY) as (_ & _ & H). fold n in H. destruct (H N8) as (ny & RS & LN & HH). cbv zeta in HH. rewrite E in HH.
  destruct HH as (m & Hm & EQ & ED & _ & MX & _).
  assert (NR : 8 <= INR n) by (replace 8 with (INR 8) by (cbn [INR]; lra); now apply le_INR).
  assert (H2 : (2 * (n / 2) <= n)%nat) by (apply Nat.mul_div_le; lia).
  assert (MB : 2 * INR m < INR n) by (change 2 with (INR 2); rewrite <- mult_INR; apply lt_INR; lia).
  assert (MP : 2 <= INR m) by (apply (le_INR 2); lia). pose proof PI_RGT_0 as PP.
  assert (R2 : INR (2 * n) = 2 * INR n) by (rewrite mult_INR; reflexivity).
  set (Q := 2 * PI * INR m * (2 * INR n - 1) / (2 * INR n * (rn - r0))).
  exists ny, m, Q. split; [exact RS|]. split; [exact Hm|]. split; [intros j Hj; exact (MX j Hj)|].
  assert (DQ : qmax - Q = dq * (INR m / (2 * INR n))) by (rewrite EQ, ED; unfold Q; field; lra).
  assert (DP : 0 < dq) by (rewrite ED; apply Rdiv_lt_0_compat; lra).
  assert (FP : 0 < INR m / (2 * INR n)) by (apply Rdiv_lt_0_compat; lra).
  assert (F4 : INR m / (2 * INR n) < / 4).
  { apply (Rmult_lt_reg_r (2 * INR n)); [lra|]. unfold Rdiv. rewrite Rmult_assoc, Rinv_l by lra. lra. }
  split; [|split; [|split]].
  - unfold sine_coefficient, sine_transform. f_equal. f_equal.
    rewrite map_combine_seq by (now rewrite linspace_len). rewrite LN. apply map_ext_in. intros j Hj. apply in_seq in Hj. cbn [fst snd]. f_equal. f_equal.
    rewrite (nth_error_nth _ _ 0 (linspace_nth r0 rn (2 * n) j ltac:(lia))). rewrite R2. unfold Q. field. lra.
  - split; [unfold Q; apply Rdiv_lt_0_compat; [|apply Rmult_lt_0_compat; lra]; apply Rmult_lt_0_compat; [apply Rmult_lt_0_compat; lra|lra]|].
    unfold Q. replace (PI / ((rn - r0) / (2 * INR n - 1))) with (PI * (2 * INR n) * (2 * INR n - 1) / (2 * INR n * (rn - r0))) by (field; lra).
    unfold Rdiv. apply Rmult_lt_compat_r; [apply Rinv_0_lt_compat, Rmult_lt_0_compat; lra|]. apply Rmult_lt_compat_r; [lra|]. rewrite (Rmult_comm 2 PI), Rmult_assoc. apply Rmult_lt_compat_l; lra.
  - intros C. assert (Z : dq * (INR m / (2 * INR n)) = 0) by (rewrite <- DQ, C; ring). apply Rmult_integral in Z. lra.
  - rewrite DQ, Rabs_right by (apply Rle_ge, Rmult_le_pos; lra). apply Rmult_lt_compat_l; lra.
Qed.
Theorem C160_example : exists qmax dq, find_qmax imp_r imp_data = Ok (Some (qmax, dq)).
Proof. destruct C159_example as (q & E & _). now exists q, (2 * PI / 7). Qed.

Print Assumptions C159_find_qmax.
Print Assumptions C159_lengths.
Print Assumptions C159_empty.
Print Assumptions C159_example.
Print Assumptions C160_frequency.
Print Assumptions C160_example.

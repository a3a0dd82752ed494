(** Model of the calls extract_single, prune and PDFPeakExtraction.extract make of the tracer
    (peakextraction.py:829-831, 1337, 1361-1362; modelcluster.py:1479-1480, 1625, 1649;
    pdfpeakextraction.py:361-362, 540, 554): the log of a run, next to Extract.v, Prune.v
    and PdfExtract.v, which leave the tracer out.

    A log is meaningful for runs that succeed; where the run raises it is cut off somewhere.
    Making a trace changes nothing the run uses (C68) and is taken to succeed. *)
From Coq Require Import Reals.
From Verif Require Import Prelude Evaluators ModelCluster Prune Nyquist Extract.
From Verif Require DataClusters PdfExtract.
Open Scope Z_scope.

(** One call of the tracer; [LEmit cs] is emit of the clusters cs. *)
Inductive lev {C : Type} := LPushC | LPopC | LPushR | LPopR | LEmit (cs : list C).
Arguments lev : clear implicits.

Section Run.
Context {P B Q : Type}.
Variable T : xtools P B Q.
Notation w := (t_w T).
Notation cluster := (cluster P B).
Notation log := (list (lev cluster)).

(** *** prune: the models it emits, one per round that found a better model (1625) *)
Fixpoint prune_loop_models (fuel : nat) (rc ynobl : list Z) (best : list P) (norig : nat) (best_qual : Q)
    (mc : cluster) (live : list bool) : list (list P) :=
  match fuel with
  | O => []
  | S fuel' =>
    if negb (existsb (fun b => b) live) then [] else
    match check_peaks w (t_qk T) best best_qual rc ynobl (seq 0 (length best)) mc with
    | Err _ => []
    | Ok (mc1, cks, qs) =>
      match nth_error qs (t_qargmax T (map snd qs)) with
      | None => []
      | Some (idx, nq) =>
        if w_qlt w best_qual nq then
          match nth_error cks idx with
          | Some (Some l) =>
            let bmtemp := firstn (window_lo idx) best ++ l ++ skipn (window_hi idx norig) best in
            let f := fit w (set_y (set_model mc1 bmtemp) (mkArr 0 ynobl)) false 0 false false in
            match fr_out f with
            | Err _ => []
            | Ok _ =>
              let best' := c_model (fr_c f) in
              best' :: match best' with
                       | [] => []
                       | _ => prune_loop_models fuel' rc ynobl best' (norig - 1) (w_quality w (fr_c f)) (fr_c f) (del_at (map is_some cks) idx)
                       end
            end
          | _ => []
          end
        else []
      end
    end
  end.
Definition prune_log (fuel : nat) (c : cluster) : log :=
  match c_model c with
  | [] => []                                                                      (* 1476-1477 *)
  | _ =>
    let rc := r_cluster c in
    let ynobl := vsub w (y_cluster c) (valuebl w (c_base c) rc) in
    match make_cluster w [] None (mkArr 0 rc) (mkArr 0 ynobl) (mkArr 0 (e_cluster c)) None (c_em c) (c_pf c) with
    | Err _ => [LPushC]
    | Ok mc => LPushC :: map (fun m => LEmit [set_model c m])
                 (prune_loop_models fuel rc ynobl (c_model c) (length (c_model c)) (w_quality w c) mc (map (w_removable w) (c_model c))) ++ [LPopC]
    end
  end.

(** *** extract_single *)
Variables (bl : B) (cres : Z) (em : nat) (pf : list nat).
Variable rec : list Z -> list Z -> list Z -> option (result cluster).
(** the log of the nested search on these data *)
Variable lrec : list Z -> list Z -> list Z -> log.
Variable depth : nat.
Variables ax ay ae : array.
Notation xs := (adat ax).
Notation ys := (adat ay).

(** 1068, 1241, 1287 *)
Definition recurse_log (h : hood) (m : list P) (enabled : bool) : log :=
  let rec_y := vsub w (adj_y T ax ay h) (vsum w (adj_x ax h) m) in
  match min_npars w pf, make_cluster w [] None (mkArr 3 (adj_x ax h)) (mkArr 4 rec_y) (mkArr 5 (adj_e ae h)) None em pf with
  | Ok mn, Ok chk => if enabled && w_growth w (w_quality w chk) chk mn && (depth <? 3)%nat then lrec (adj_x ax h) rec_y (adj_e ae h) else []
  | _, _ => []
  end.
(** 955-1096 *)
Definition boundary_log (mcs : list cluster) (k : nat) : log :=
  match nth_error mcs k with
  | None => []
  | Some c =>
    match (do c0 <- copy_cluster w c; do full <- fit_true T c0; do border_x <- pyget xs (Z.of_nat k); Ok (full, border_x)) with
    | Err _ => []
    | Ok (full, border_x) => let h := neighbourhood T ax full border_x in recurse_log h (near_pk h) (negb (length (near_pk h) =? 0)%nat)
    end
  end.
(** 1202-1294 *)
Definition first_variant_log (h : hood) (bx by_ : Z) (a : cluster) : log :=
  if (length (near_pk h) =? 2)%nat then
    let ybl := match valuebl w (Some bl) [bx] with v :: _ => w_rnd w (by_ - v) | [] => by_ end in
    match reduce_to w a (below_at T (c_model a) bx by_) (w_match_at w bx ybl) with
    | (_, Err _) => []
    | (a1, Ok _) => recurse_log h (c_model a1) true
    end
  else [].
Definition second_variant_log (h : hood) (a : cluster) : log :=
  match fit_true T a with Err _ => [] | Ok a1 => recurse_log h (c_model a1) (negb (length (near_pk h) =? 0)%nat) end.
(** 1104-1329 *)
Definition combine_pair_log (cs : list (Z * Z)) (mcs : list cluster) (idx : nat) : log :=
  match nth_error cs (idx - 1)%nat, nth_error cs idx, nth_error mcs (idx - 1)%nat, nth_error mcs idx with
  | Some cl, Some cr, Some ml, Some mr =>
    match (do new <- join_adjacent w ml mr;
           do x1 <- pyget xs (snd cl); do x2 <- pyget xs (fst cr); do y1 <- pyget ys (snd cl); do y2 <- pyget ys (fst cr);
           let h := neighbourhood T ax new (w_mid w x1 x2) in
           do a <- adj_cluster T bl em pf ax ay ae h; Ok (h, w_mid w x1 x2, w_mid w y1 y2, a)) with
    | Err _ => []
    | Ok (h, bx, by_, a) => first_variant_log h bx by_ a ++ second_variant_log h a
    end
  | _, _, _, _ => []
  end.
Fixpoint combine_all_log (cs : list (Z * Z)) (mcs : list cluster) (is : list nat) : log :=
  match is with
  | [] => []
  | i :: r => combine_pair_log cs mcs i ++
      match combine_pair T bl em pf rec depth ax ay ae cs mcs i with Some (Ok mcs') => combine_all_log cs mcs' r | _ => [] end
  end.
(** 925-1335 *)
Definition body_log (minpoints : Z) (s : DataClusters.dc) (mcs : list cluster) (adj : list nat) : log :=
  match DataClusters.lastc s, DataClusters.lastp s with
  | Some k, Some p =>
    match (do m1 <- fit_all T mcs adj; fit_last T m1 k minpoints) with
    | Err _ => []
    | Ok m2 =>
      let ends := (p =? 0) || (p =? Z.of_nat (length (DataClusters.xs s)) - 1) in
      (if ends then boundary_log m2 k else []) ++
      match (if ends then boundary T bl em pf rec depth ax ay ae m2 k else Some (Ok m2)) with
      | Some (Ok m3) => combine_all_log (DataClusters.clusters s) m3 (rev (tl adj))
      | _ => []
      end
    end
  | _, _ => []
  end.
(** 880-1337; emit of all the mclusters ends every pass *)
Fixpoint loop_log (fuel : nat) (minpoints : Z) (s : DataClusters.dc) (mcs : list cluster) : log :=
  match fuel with
  | O => []
  | S f =>
    match DataClusters.next (w_rnd w) s with
    | (_, Err _) => []
    | (s1, Ok _) =>
      match head T bl em pf ax ay ae s1 mcs with
      | Err _ => []
      | Ok (m1, adj) =>
        body_log minpoints s1 m1 adj ++
        match body T bl em pf rec depth ax ay ae minpoints s1 m1 adj with
        | Some (Ok (s2, m2)) => LEmit m2 :: loop_log f minpoints s2 m2
        | _ => []
        end
      end
    end
  end.
(** 1343-1346 *)
Definition finish_log (mcs : list cluster) (ip : list P) : log :=
  match mcs with
  | [] => []
  | c :: _ => match addexternalpeaks T c ip with Err _ => [] | Ok c1 => prune_log (S (length (c_model c1))) c1 end
  end.
(** 829-831 ... 1361-1362 *)
Definition run_log (yd : list Z) (ip : list P) : log :=
  LPushC :: LPushR ::
  match start T bl cres em pf ax ay ae yd with
  | Err _ => []
  | Ok (s, mcs, mp) =>
    loop_log (S (length xs)) mp s mcs ++
    match loop T bl em pf rec depth ax ay ae (S (length xs)) mp s mcs with
    | Some (Ok u) => finish_log (snd u) ip ++ [LPopC; LPopR]
    | _ => []
    end
  end.
End Run.

(** extract_single at the given recursion depth *)
Fixpoint extract_log {P B Q} (T : xtools P B Q) (bl : B) (cres : Z) (em : nat) (pf : list nat)
    (fuel depth : nat) (x y e : list Z) (ip : list P) : list (lev (cluster P B)) :=
  match fuel with
  | O => []
  | S f =>
    let w := t_w T in
    run_log T bl cres em pf
      (fun rx ry re => match rx with [] => Some (Err IndexError) | _ => extract T bl cres em pf f (S depth) rx ry (default_edy T ry re) [] end)
      (fun rx ry re => match rx with [] => [] | _ => extract_log T bl cres em pf f (S depth) rx ry (default_edy T ry re) [] end)
      depth (mkArr 0 x) (mkArr 1 (vsub w y (vsum w x ip))) (mkArr 2 e)
      (vsub w (vsub w y (w_blvalue w bl x)) (vsum w x ip)) ip
  end.

(** *** PDFPeakExtraction.extract *)
Section Pdf.
Context {P B Q : Type}.
Variable T : xtools P B Q.
Notation w := (t_w T).
Notation cluster := (cluster P B).
Notation log := (list (lev cluster)).
Variable enc : R -> Z.
Variable owner : P -> nat.
Variable static : P -> bool.
Variable set_owner : P -> nat -> P.
Variable ripples : nat -> bool.
Variable tfunc : nat -> nat.
Notation pdf := (@PdfExtract.pdf P B).

(** pdfpeakextraction.py:487-528 *)
Fixpoint nyquist_log (s : pdf) (base : option B) (sp drn : R) (fuel : nat) (c : cluster) : log :=
  match fuel with
  | O => []
  | S fuel' =>
    let dr := interval sp drn (free w c) in
    match PdfExtract.resampled_arrays enc s dr with
    | Err _ => []
    | Ok (r2, y2, e2) =>
      match make_cluster w (c_model c) base r2 y2 e2 None (PdfExtract.p_em s) (PdfExtract.p_pf s) with
      | Err _ => []
      | Ok c1 =>
        let f := fit w c1 false 0 false true in
        prune_log T (S (length (c_model (fr_c f)))) (fr_c f) ++
        match round w (t_qk T) (t_qargmax T) (PdfExtract.resampled_arrays enc s) base (PdfExtract.p_em s) (PdfExtract.p_pf s) dr c with
        | Some (Ok c') =>
          if Req_EM_T dr drn then [] else
          if (free w c' =? free w c)%nat then [] else nyquist_log s base sp drn fuel' c'
        | _ => []
        end
      end
    end
  end.
(** 440-528 *)
Definition ripples_log (fuel : nat) (s : pdf) (g : list R * list R * list R) (drn : R) (c : cluster) : log :=
  let '(r1, y1, e1) := g in
  match PdfExtract.wrap_all owner static set_owner ripples tfunc (c_model c) with
  | Err _ => []
  | Ok m =>
    if PdfExtract.d_nyquist (PdfExtract.p_data s) then
      match PdfExtract.span r1 with Err _ => [] | Ok sp => nyquist_log s (c_base c) sp drn fuel (set_model c m) end
    else
      match make_cluster w m (c_base c) (PdfExtract.arr enc 3 r1) (PdfExtract.arr enc 4 y1) (PdfExtract.arr enc 5 e1) None (PdfExtract.p_em s) (PdfExtract.p_pf s) with
      | Err _ => []
      | Ok c2 => prune_log T (S (length (c_model c2))) c2
      end
  end.
(** 353-556 *)
Definition pdf_log (fuel : nat) (s : pdf) : log :=
  LPushC ::
  match PdfExtract.dr_raw (PdfExtract.p_data s), PdfExtract.extract_grid (PdfExtract.p_data s) with
  | Ok raw, Ok (r1, y1, e1) =>
    extract_log T (PdfExtract.p_bl s) (PdfExtract.p_cres s) (PdfExtract.p_em s) (PdfExtract.p_pf s) 4 1 (map enc r1) (map enc y1) (map enc e1) (PdfExtract.p_ip s) ++
    match extract T (PdfExtract.p_bl s) (PdfExtract.p_cres s) (PdfExtract.p_em s) (PdfExtract.p_pf s) 4 1 (map enc r1) (map enc y1) (map enc e1) (PdfExtract.p_ip s) with
    | Some (Ok c) =>
      let rippled := Rltb 0 (PdfExtract.d_qmax (PdfExtract.p_data s)) in
      let drn := PdfExtract.dr_nyquist (PdfExtract.p_data s) raw in
      (if rippled then ripples_log fuel s (r1, y1, e1) drn c else []) ++
      match (if rippled then PdfExtract.with_ripples T enc owner static set_owner ripples tfunc fuel s (r1, y1, e1) drn c else Some (Ok c)) with
      | Some (Ok c1) => [LEmit [fr_c (fit w c1 false 0 true true)]; LPopC]
      | _ => []
      end
    | _ => []
    end
  | _, _ => []
  end.
End Pdf.

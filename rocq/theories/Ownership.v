(** Model of which object the extracted model holds as its baseline, and of what
    extract_single (peakextraction.py:816-1365) leaves in the user's baseline object.
    PdfExtract.v continues this for PDFPeakExtraction.extract.

    In Extract.v a cluster carries the content of its baseline.  Here every cluster has a
    flag besides: true if its baseline is self.baseline itself, false if it is a copy.
    - ModelCluster(None, bl, ...) holds the object it is given (modelcluster.py:494);
    - ModelCluster(c) holds a copy (modelcluster.py:477-480);
    - join_adjacent holds the object of its first argument (modelcluster.py:871);
    - a fit that is undone holds the copy made before it (1061-1064, 1090-1091, 1117-1118,
      1140-1141); every other fit keeps the object.
    Nothing but a fit with fitbaseline=True changes the content of a baseline object
    ([fr_base] in ModelCluster.v), and there is only one per extract_single, at its end. *)
From Coq Require Import Reals.
From Verif Require Import Prelude Evaluators ModelCluster Prune Nyquist Extract.
From Verif Require DataClusters.
Open Scope Z_scope.

Section Ownership.
Context {P B Q : Type}.
Variable T : xtools P B Q.
Notation w := (t_w T).
Notation cluster := (cluster P B).
Variables (bl : B) (cres : Z) (em : nat) (pf : list nat).

(** Whether [c.fit(...)] leaves the cluster with the baseline object it had: it does if
    nothing was fitted (1046-1058), or if the fit was accepted. *)
Definition nothing_to_fit (c : cluster) (est : bool) : bool :=
  c_never c ||
  match c_model c with
  | [] => if est then match estimatepeak w c with (_, Ok _) => false | (_, Err _) => true end else true
  | _ => false
  end.
Definition keeps (c : cluster) (justify fb est : bool) : bool :=
  match fr_out (fit w c justify 0 fb est) with Ok None => nothing_to_fit c est | _ => true end.

Variable rec : list Z -> list Z -> list Z -> option (result cluster).
Variable depth : nat.
Variables ax ay ae : array.
Notation xs := (adat ax).
Notation ys := (adat ay).
(** flag [k] after an operation that keeps the object if [b] *)
Definition lower (fl : list bool) (k : nat) (b : bool) : list bool := upd fl k (nth k fl true && b).

(** 893-915 *)
Definition own_sync (s : DataClusters.dc) (mcs : list cluster) (fl : list bool) : list bool :=
  match DataClusters.lastc s with
  | None => fl
  | Some k => if (length mcs <? length (DataClusters.clusters s))%nat then insert_at fl k true else fl
  end.
(** 932-933 *)
Fixpoint own_fit_all (mcs : list cluster) (is : list nat) (fl : list bool) : list bool :=
  match is with
  | [] => fl
  | a :: r =>
    match nth_error mcs a with
    | None => fl
    | Some c => match fit_true T c with
                | Err _ => fl
                | Ok c' => own_fit_all (upd mcs a c') r (lower fl a (keeps c true false true))
                end
    end
  end.
(** 941; contingent_fit either does nothing or fits *)
Definition own_fit_last (mcs : list cluster) (k : nat) (minpoints : Z) (fl : list bool) : list bool :=
  match nth_error mcs k with
  | None => fl
  | Some c =>
    if fit_due c minpoints 2 1 then lower fl k (keeps c true false true) else fl
  end.
(** 1101-1298: the joined cluster with the peaks chosen for it, before its last fit. *)
Definition joined (cs : list (Z * Z)) (mcs : list cluster) (idx : nat) : option (result cluster) :=
  match nth_error cs (idx - 1)%nat, nth_error cs idx, nth_error mcs (idx - 1)%nat, nth_error mcs idx with
  | Some cl, Some cr, Some ml, Some mr =>
    odo new <- lift (join_adjacent w ml mr);
    odo x1 <- lift (pyget xs (snd cl));
    odo x2 <- lift (pyget xs (fst cr));
    odo y1 <- lift (pyget ys (snd cl));
    odo y2 <- lift (pyget ys (fst cr));
    let h := neighbourhood T ax new (w_mid w x1 x2) in
    odo a <- lift (adj_cluster T bl em pf ax ay ae h);
    odo a1 <- first_variant T bl em pf rec depth ax ay ae h (w_mid w x1 x2) (w_mid w y1 y2) a;
    odo a2 <- second_variant T em pf rec depth ax ay ae h a;
    odo _ <- lift (copy_cluster w (set_model new (other_pk h)));
    let best := if w_qlt w (w_quality w a2) (w_quality w a1) then c_model a1 else c_model a2 in
    match replacepeaks w (other_pk h) best (Some 0) (Some 0) with
    | (_, Err e) => Some (Err e)
    | (m, Ok _) => Some (Ok (set_model new m))
    end
  | _, _, _, _ => Some (Err IndexError)
  end.
(** 1296-1329 *)
Definition own_combine_pair (cs : list (Z * Z)) (mcs : list cluster) (idx : nat) (fl : list bool) : list bool :=
  match joined cs mcs idx with
  | Some (Ok c) => del_at (lower fl (idx - 1) (keeps c true false true)) idx
  | _ => fl
  end.
Fixpoint own_combine_all (cs : list (Z * Z)) (mcs : list cluster) (is : list nat) (fl : list bool) : list bool :=
  match is with
  | [] => fl
  | i :: r =>
    match combine_pair T bl em pf rec depth ax ay ae cs mcs i with
    | Some (Ok mcs') => own_combine_all cs mcs' r (own_combine_pair cs mcs i fl)
    | _ => fl
    end
  end.
(** 925-1335; full_cluster (957) is a copy and takes the place of the cluster (1096) *)
Definition at_end (s : DataClusters.dc) (p : Z) : bool := (p =? 0) || (p =? Z.of_nat (length (DataClusters.xs s)) - 1).
Definition own_body (minpoints : Z) (s : DataClusters.dc) (mcs : list cluster) (adj : list nat) (fl : list bool) : list bool :=
  match DataClusters.lastc s, DataClusters.lastp s with
  | Some k, Some p =>
    match fit_all T mcs adj with
    | Err _ => fl
    | Ok m1 =>
      match fit_last T m1 k minpoints with
      | Err _ => fl
      | Ok m2 =>
        let f2 := own_fit_last m1 k minpoints (own_fit_all mcs adj fl) in
        match (if at_end s p then boundary T bl em pf rec depth ax ay ae m2 k else Some (Ok m2)) with
        | Some (Ok m3) => own_combine_all (DataClusters.clusters s) m3 (rev (tl adj)) (if at_end s p then upd f2 k false else f2)
        | _ => fl
        end
      end
    end
  | _, _ => fl
  end.
Definition own_iteration (minpoints : Z) (s : DataClusters.dc) (mcs : list cluster) (fl : list bool) : list bool :=
  match head T bl em pf ax ay ae s mcs with
  | Ok (m1, adj) => own_body minpoints s m1 adj (own_sync s mcs fl)
  | Err _ => fl
  end.
(** The loop 880-1335 *)
Fixpoint own_loop (fuel : nat) (minpoints : Z) (s : DataClusters.dc) (mcs : list cluster) (fl : list bool) : list bool :=
  match fuel with
  | O => fl
  | S f =>
    match DataClusters.next (w_rnd w) s with
    | (s1, Ok _) =>
      match iteration T bl em pf rec depth ax ay ae minpoints s1 mcs with
      | Some (Ok (s2, m2)) => own_loop f minpoints s2 m2 (own_iteration minpoints s1 mcs fl)
      | _ => fl
      end
    | _ => fl
    end
  end.

(** The end, 1343-1355, at the top level: the content of self.baseline, the extracted model,
    and whether its baseline is self.baseline. *)
Definition own_finish (mcs : list cluster) (fl : list bool) (ip : list P) : option (B * result (cluster * bool)) :=
  match mcs with
  | [] => Some (bl, Err IndexError)
  | c :: _ =>
    match addexternalpeaks T c ip with
    | Err e => Some (bl, Err e)
    | Ok c1 =>
      match prune w (t_qk T) (t_qargmax T) (S (length (c_model c1))) c1 with
      | None => None
      | Some (_, Err e) => Some (bl, Err e)
      | Some (m, Ok _) =>
        let c2 := set_model c1 m in
        let mine := hd true fl in
        let f := fit w c2 false 0 true true in
        Some (if mine then match fr_base f with Some b => b | None => bl end else bl,
              match fr_out f with Err e => Err e | Ok _ => Ok (fr_c f, mine && keeps c2 false true true) end)
      end
    end
  end.
Definition own_run (yd : list Z) (ip : list P) : option (B * result (cluster * bool)) :=
  match start T bl cres em pf ax ay ae yd with
  | Err e => Some (bl, Err e)
  | Ok (s, mcs, mp) =>
    match loop T bl em pf rec depth ax ay ae (S (length xs)) mp s mcs with
    | None => None
    | Some (Err e) => Some (bl, Err e)
    | Some (Ok u) => own_finish (snd u) (own_loop (S (length xs)) mp s mcs [true]) ip
    end
  end.
End Ownership.

(** The whole of extract_single, called by the user; nested calls as in Extract.v. *)
Section Single.
Context {P B Q : Type}.
Variable T : xtools P B Q.
Variables (bl : B) (cres : Z) (em : nat) (pf : list nat).
(** the data without baseline and initial peaks, 845: what the clustering sees *)
Definition bare (x y : list Z) (ip : list P) : list Z :=
  vsub (t_w T) (vsub (t_w T) y (w_blvalue (t_w T) bl x)) (vsum (t_w T) x ip).
Definition own_extract (x y e : list Z) (ip : list P) : option (B * result (cluster P B * bool)) :=
  own_run T bl cres em pf
    (fun rx ry re => match rx with [] => Some (Err IndexError) | _ => extract T bl cres em pf 3 2 rx ry (default_edy T ry re) [] end)
    1 (mkArr 0 x) (mkArr 1 (vsub (t_w T) y (vsum (t_w T) x ip))) (mkArr 2 e) (bare x y ip) ip.
End Single.

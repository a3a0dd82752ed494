(** Model of PeakExtraction.estimate_peak and add_peaks (peakextraction.py:732-814), on
    top of DataClusters.v and ModelCluster.v.

    The default settings are in place (defaultvars, C46-C48), so baseline and
    initial_peaks are present and the range is given as a slice of the data.  Logging is
    left out. *)
From Verif Require Import Prelude ModelCluster Prune Extract.
From Verif Require DataClusters.
Open Scope Z_scope.

(** The attributes of a PeakExtraction object the two methods use. *)
Record pe {P B : Type} := mkPE {
  pe_x : list Z; pe_y : list Z; pe_e : list Z;       (* x, y, effective_dy *)
  pe_lo : nat; pe_hi : nat;                          (* getrangeslice() *)
  pe_base : B; pe_init : list P;                     (* baseline, initial_peaks *)
  pe_extracted : option (cluster P B);
  pe_cres : Z; pe_em : nat; pe_pf : list nat }.
Arguments pe : clear implicits.
Arguments mkPE {P B}. Arguments pe_x {P B}. Arguments pe_y {P B}. Arguments pe_e {P B}. Arguments pe_lo {P B}. Arguments pe_hi {P B}.
Arguments pe_base {P B}. Arguments pe_init {P B}. Arguments pe_extracted {P B}. Arguments pe_cres {P B}. Arguments pe_em {P B}. Arguments pe_pf {P B}.

Section EstimatePeak.
Context {P B Q : Type}.
Variable T : xtools P B Q.
Notation w := (t_w T).
Notation cluster := (cluster P B).
Notation pe := (pe P B).

(** ModelCluster.value() on r_cluster: modelcluster.py:1267-1287. *)
Definition cluster_value (c : cluster) : list Z :=
  vadd w (valuebl w (c_base c) (r_cluster c)) (vsum w (r_cluster c) (c_model c)).

(** The data without what is known already: 753-763. *)
Definition remaining (s : pe) : list Z * list Z * list Z :=
  match pe_extracted s with
  | Some c => (r_cluster c, vsub w (y_cluster c) (cluster_value c), e_cluster c)
  | None =>
    let x1 := slice (pe_x s) (pe_lo s) (pe_hi s) in
    (x1,
     vsub w (vsub w (slice (pe_y s) (pe_lo s) (pe_hi s)) (w_blvalue w (pe_base s) x1)) (vsum w x1 (pe_init s)),
     slice (pe_e s) (pe_lo s) (pe_hi s))
  end.

(** add_peaks: 799-814. *)
Definition add_peaks (s : pe) (new : list P) : pe * result unit :=
  match pe_extracted s with
  | Some c =>
    match replacepeaks w (c_model c) new (Some 0) (Some 0) with
    | (m, r) => (mkPE (pe_x s) (pe_y s) (pe_e s) (pe_lo s) (pe_hi s) (pe_base s) (pe_init s) (Some (set_model c m))
                      (pe_cres s) (pe_em s) (pe_pf s), r)
    end
  | None => (mkPE (pe_x s) (pe_y s) (pe_e s) (pe_lo s) (pe_hi s) (pe_base s) (sort_peaks w (pe_init s ++ new)) None
                  (pe_cres s) (pe_em s) (pe_pf s), Ok tt)
  end.

(** A new cluster from part of the data, fitted: 781-787.  The array identities do not
    matter here. *)
Definition peaks_in (s : pe) (x1 y1 e1 : list Z) : result (list P) :=
  do c <- make_cluster w [] None (mkArr 0 x1) (mkArr 1 y1) (mkArr 2 e1) None (pe_em s) (pe_pf s);
  let f := fit w c false 0 false true in
  do _ <- fr_out f; Ok (c_model (fr_c f)).

(** Which points estimate_peak looks at: 772-780.  None: never happens (C141). *)
Definition points_near (s : pe) (x1 y1 : list Z) (v : Z) : option (result (Z * Z)) :=
  match DataClusters.construct (t_argsort T) x1 y1 (pe_cres s) with
  | Err e => Some (Err e)
  | Ok d =>
    match DataClusters.makeclusters (w_rnd w) (S (length x1)) d with
    | None => None
    | Some (_, _, Err e) => Some (Err e)
    | Some (d', _, Ok _) =>
      Some (do r <- DataClusters.find_nearest_cluster2 (w_rnd w) d' v;
            match r with None => Err TypeError | Some (k, _) => DataClusters.cut d' k end)
    end
  end.

(** estimate_peak: 732-797. *)
Definition estimate_peak (s : pe) (v : Z) (add : bool) : option (pe * result (option P)) :=
  let '(x1, y1, e1) := remaining s in
  match x1 with
  | [] => Some (s, Err IndexError)
  | x0 :: _ =>
    if (v <? x0) || (last x1 x0 <? v) then Some (s, Err ValueError) else
    match points_near s x1 y1 v with
    | None => None
    | Some (Err e) => Some (s, Err e)
    | Some (Ok (a, b)) =>
      let part l := slice l (Z.to_nat a) (Z.to_nat b) in
      match peaks_in s (part x1) (part y1) (part e1) with
      | Err e => Some (s, Err e)
      | Ok [] => Some (s, Ok None)
      | Ok (p :: ps) =>
        if add then match add_peaks s (p :: ps) with (s', Ok _) => Some (s', Ok (Some p)) | (s', Err e) => Some (s', Err e) end
        else Some (s, Ok (Some p))
      end
    end
  end.
End EstimatePeak.

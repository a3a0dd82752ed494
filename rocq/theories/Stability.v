(** Model of PeakStability.setcurrent and run (peakstability.py:131-159, 192-222).

    Peaks lists and baselines are mutable objects (a fit changes them in place), so the
    stored results, the extracted cluster and the extracter hold addresses.  The extraction
    itself and the resampling are arbitrary functions.  Extraction makes a new model object
    (peakextraction.py:841 copies the initial peaks); it may change the content of the
    extracter's baseline object, and the baseline of the extracted cluster is either that
    object or a new one (Ownership.v, PdfExtract.v).  All settings of the extracter have
    values already (defaultvars, C48), so extraction changes no others.  Uncertainties are
    integers (scaled), grid spacings abstract. *)
From Verif Require Import Prelude ModelCluster.
Open Scope Z_scope.

Section Stability.
Context {P B Q D X : Type}.
Variable w : world P B Q.
(** The extracter: data, effective_dy, what its extracted cluster is (model and baseline
    addresses), error method, peak functions, its baseline object and everything else. *)
Record extracted := mkEx { e_model : nat; e_base : nat; e_frame : cluster P B }.
Record ppe := mkPpe { p_x : list Z; p_edy : list Z; p_ext : option extracted; p_em : nat; p_pf : list nat; p_base : nat; p_rest : X }.
Record res := mkRes { r_err : Z; r_model : nat; r_base : nat; r_dr : D }.
Record stab := mkStab { s_models : list (list P); s_bases : list (option B); s_results : list res; s_ppe : ppe; s_current : option Z }.

Variable resample : ppe -> D -> result (array * array * array).      (* r, y, dy of resampledata *)
(** extract(), given the content of ppe.baseline: what it leaves there; the model, its own
    baseline (None: it holds ppe.baseline itself) and the rest of the extracted cluster *)
Variable do_extract : ppe -> option B -> option B * result (list P * option (option B) * cluster P B).
Variable spacing : cluster P B -> result D.                          (* 212-214 *)

(** The model and baseline of the extracted cluster are the objects' current content. *)
Definition ext_cluster (s : stab) (x : extracted) : option (cluster P B) :=
  match nth_error (s_models s) (e_model x), nth_error (s_bases s) (e_base x) with
  | Some m, Some b => Some (set_base (set_model (e_frame x) m) b)
  | _, _ => None
  end.
Definition set_ppe (s : stab) (p : ppe) : stab := mkStab (s_models s) (s_bases s) (s_results s) p (s_current s).
Definition set_current (s : stab) (c : option Z) : stab := mkStab (s_models s) (s_bases s) (s_results s) (s_ppe s) c.
Definition set_edy (p : ppe) (e : Z) : ppe := mkPpe (p_x p) (repeat e (length (p_x p))) (p_ext p) (p_em p) (p_pf p) (p_base p) (p_rest p).
Definition set_ext (p : ppe) (x : option extracted) : ppe := mkPpe (p_x p) (p_edy p) x (p_em p) (p_pf p) (p_base p) (p_rest p).

(** setcurrent, 131-159 *)
Definition setcurrent (s : stab) (idx : option Z) : stab * result unit :=
  let s1 := set_current s idx in
  match idx with
  | None => (set_ppe s1 (set_ext (s_ppe s1) None), Ok tt)
  | Some i =>
    match pyget (s_results s1) i with
    | Err e => (s1, Err e)
    | Ok r =>
      let p := set_edy (s_ppe s1) (r_err r) in
      let s2 := set_ppe s1 p in
      match resample p (r_dr r), nth_error (s_models s) (r_model r), nth_error (s_bases s) (r_base r) with
      | Err e, _, _ => (s2, Err e)
      | Ok (rr, yy, dy), Some m, Some b =>
        match make_cluster w m b rr yy dy None (p_em p) (p_pf p) with
        | Err e => (s2, Err e)
        | Ok c => (set_ppe s2 (set_ext p (Some (mkEx (r_model r) (r_base r) c))), Ok tt)
        end
      | Ok _, _, _ => (s2, Err AttributeError)
      end
    end
  end.

(** one pass of the loop at 206-217; effective_dy is the scalar e > 0 turned into an array
    by defaultvars (peakextraction.py:213-214). *)
Definition run_one (s : stab) (e : Z) : stab * result unit :=
  let p := set_edy (set_ext (s_ppe s) None) e in
  match nth_error (s_bases s) (p_base p) with
  | None => (set_ppe s p, Err AttributeError)
  | Some content =>
    let '(content', out) := do_extract p content in
    let bases := upd (s_bases s) (p_base p) content' in
    match out with
    | Err x => (mkStab (s_models s) bases (s_results s) p (s_current s), Err x)
    | Ok (m, own, c) =>
      let am := length (s_models s) in
      let ab := match own with Some _ => length bases | None => p_base p end in
      let s1 := mkStab (s_models s ++ [m]) (match own with Some b => bases ++ [b] | None => bases end) (s_results s) (set_ext p (Some (mkEx am ab c))) (s_current s) in
      match spacing c with
      | Err x => (s1, Err x)
      | Ok d => (mkStab (s_models s1) (s_bases s1) (s_results s ++ [mkRes e am ab d]) (s_ppe s1) (s_current s1), Ok tt)
      end
    end
  end.
Fixpoint run_all (s : stab) (errs : list Z) : stab * result unit :=
  match errs with
  | [] => (s, Ok tt)
  | e :: r => match run_one s e with (s', Ok _) => run_all s' r | (s', Err x) => (s', Err x) end
  end.
(** run, 192-222 *)
Definition run (s : stab) (errs : list Z) : stab * result unit :=
  run_all (mkStab (s_models s) (s_bases s) [] (s_ppe s) (s_current s)) errs.

(** ppe.extracted.fit(...) by the user: what it leaves in the model and baseline objects the
    cluster held (the cluster may hold copies afterwards; that is not represented here). *)
Definition fit_extracted (s : stab) (justify : bool) (ntrials : nat) (fb est : bool) : stab :=
  match p_ext (s_ppe s) with
  | None => s
  | Some x =>
    match ext_cluster s x with
    | None => s
    | Some c =>
      let r := fit w c justify ntrials fb est in
      mkStab (upd (s_models s) (e_model x) (fr_list r)) (upd (s_bases s) (e_base x) (fr_base r)) (s_results s) (s_ppe s) (s_current s)
    end
  end.
End Stability.

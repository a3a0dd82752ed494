{
 "Parts.normalize": {
  "note": "the edited branch is a dangling location in the model (a heap cell or list entry that does not exist); no reachable state meets it and no claim speaks of it"
 },
 "Parts.npars": {
  "note": "the edited branch is a dangling location in the model (a heap cell or list entry that does not exist); no reachable state meets it and no claim speaks of it"
 },
 "Parts.part_eq": {
  "note": "the edited branch is a dangling location in the model (a heap cell or list entry that does not exist); no reachable state meets it and no claim speaks of it"
 },
 "Parts.poke": {
  "note": "the edited branch is a dangling location in the model (a heap cell or list entry that does not exist); no reachable state meets it and no claim speaks of it"
 },
 "MatchAt.second_attempt": {
  "note": "the edited branch is a dangling location in the model (a heap cell or list entry that does not exist); no reachable state meets it and no claim speaks of it"
 },
 "Stability.setcurrent": {
  "note": "the edited branch is a dangling location in the model (a heap cell or list entry that does not exist); no reachable state meets it and no claim speaks of it"
 },
 "Tracer.maketrace": {
  "note": "the edited branch is a dangling location in the model (a heap cell or list entry that does not exist); no reachable state meets it and no claim speaks of it"
 },
 "Dataset.readstr": {
  "note": "the edited branch is a dangling location in the model (a heap cell or list entry that does not exist); no reachable state meets it and no claim speaks of it"
 },
 "Files.ds_write": {
  "note": "the edited branch is a dangling location in the model (a heap cell or list entry that does not exist); no reachable state meets it and no claim speaks of it"
 },
 "Extract.fit_all": {
  "note": "the edited branch is a dangling location in the model (a heap cell or list entry that does not exist); no reachable state meets it and no claim speaks of it"
 },
 "Stability.run_one": {
  "note": "the edited branch is a dangling location in the model (a heap cell or list entry that does not exist); no reachable state meets it and no claim speaks of it"
 },
 "StabilityPdf.do_pdf": {
  "note": "the edited branch is a dangling location in the model (a heap cell or list entry that does not exist); no reachable state meets it and no claim speaks of it"
 },
 "Animate.shown": {
  "note": "the edited branch is a dangling location in the model (a heap cell or list entry that does not exist); no reachable state meets it and no claim speaks of it"
 },
 "EstimatePeak.points_near": {
  "note": "the edited branch is a dangling location in the model (a heap cell or list entry that does not exist); no reachable state meets it and no claim speaks of it"
 },
 "Access.parts_covariance": {
  "note": "only the kind of the exception changes (or a branch never reached), in a case where the property says that the call is refused, or where the caller catches both kinds"
 },
 "FromSequence.fs_transform": {
  "note": "only the kind of the exception changes (or a branch never reached), in a case where the property says that the call is refused, or where the caller catches both kinds"
 },
 "Files.loadaics": {
  "note": "only the kind of the exception changes (or a branch never reached), in a case where the property says that the call is refused, or where the caller catches both kinds"
 },
 "EstimatePeak.estimate_peak": {
  "note": "only the kind of the exception changes (or a branch never reached), in a case where the property says that the call is refused, or where the caller catches both kinds"
 },
 "MultiModel.get_aic": {
  "note": "only the kind of the exception changes (or a branch never reached), in a case where the property says that the call is refused, or where the caller catches both kinds"
 },
 "Vars.posnum": {
  "note": "only the kind of the exception changes (or a branch never reached), in a case where the property says that the call is refused, or where the caller catches both kinds"
 },
 "Vars.step_pdfcres": {
  "note": "only the kind of the exception changes (or a branch never reached), in a case where the property says that the call is refused, or where the caller catches both kinds"
 },
 "Serial.fun_factory": {
  "note": "only the kind of the exception changes (or a branch never reached), in a case where the property says that the call is refused, or where the caller catches both kinds"
 },
 "Serial.part_init": {
  "note": "only the kind of the exception changes (or a branch never reached), in a case where the property says that the call is refused, or where the caller catches both kinds"
 },
 "Serial.package_attr": {
  "note": "only the kind of the exception changes (or a branch never reached), in a case where the property says that the call is refused, or where the caller catches both kinds"
 },
 "Serial.mc_factory": {
  "note": "only the kind of the exception changes (or a branch never reached), in a case where the property says that the call is refused, or where the caller catches both kinds"
 },
 "FromSequence.construct": {
  "note": "only the kind of the exception changes (or a branch never reached), in a case where the property says that the call is refused, or where the caller catches both kinds"
 },
 "Functions.write_base": {
  "note": "only the kind of the exception changes (or a branch never reached), in a case where the property says that the call is refused, or where the caller catches both kinds"
 },
 "MakePlot.lmax": {
  "note": "only the kind of the exception changes (or a branch never reached), in a case where the property says that the call is refused, or where the caller catches both kinds"
 },
 "Covariance.getvalue": {
  "note": "only the kind of the exception changes (or a branch never reached), in a case where the property says that the call is refused, or where the caller catches both kinds"
 },
 "FromSequence.load_file": {
  "note": "only the kind of the exception changes (or a branch never reached), in a case where the property says that the call is refused, or where the caller catches both kinds"
 },
 "FromSequence.alen": {
  "note": "only the kind of the exception changes (or a branch never reached), in a case where the property says that the call is refused, or where the caller catches both kinds"
 },
 "ExtractText.readstr": {
  "note": "only the kind of the exception changes (or a branch never reached), in a case where the property says that the call is refused, or where the caller catches both kinds"
 },
 "Ripples.extend_grid": {
  "note": "only the kind of the exception changes (or a branch never reached), in a case where the property says that the call is refused, or where the caller catches both kinds"
 },
 "Animate.plot3dclassprobs": {
  "note": "only the kind of the exception changes (or a branch never reached), in a case where the property says that the call is refused, or where the caller catches both kinds"
 },
 "Cli.chosen_baseline": {
  "note": "only the kind of the exception changes (or a branch never reached), in a case where the property says that the call is refused, or where the caller catches both kinds"
 },
 "DatasetText.space": {
  "note": "the character at the boundary of the range of blank characters; the claim then only spoke of blanks and newlines",
  "tightened": [
   "C188_blank_characters"
  ],
  "claim": "C188"
 },
 "Extract.default_edy": {
  "note": "the default uncertainties when an entry is not positive; then stated",
  "tightened": [
   "C217_nested_uncertainties"
  ],
  "claim": "C217"
 },
 "Ripples.fine_part": {
  "note": "both branches give the same result at the edited boundary (one subdivision, or a block of length one)"
 },
 "Ripples.place": {
  "note": "both branches give the same result at the edited boundary (one subdivision, or a block of length one)"
 },
 "Baselines.sign": {
  "note": "the scale is only used through its sign"
 },
 "Tracer.new_tracer": {
  "note": "reset_trace overwrites the edited fields"
 },
 "Residual.free3_of": {
  "note": "only read for lists shorter than the three parameters of the function, which the callers refuse"
 },
 "Residual.gor_func": {
  "note": "only read for lists shorter than the three parameters of the function, which the callers refuse"
 },
 "Residual.put_at": {
  "note": "only read for lists shorter than the three parameters of the function, which the callers refuse"
 },
 "EstimatePeak.peaks_in": {
  "note": "the identity of a fresh array, or a fit option that the fit of this model does not read"
 },
 "Extract.second_variant": {
  "note": "the length is never negative"
 },
 "ExtractText.is_label": {
  "note": "the default of a pattern match that no input reaches with a different result"
 },
 "DatasetText.is_zero": {
  "note": "the default of a pattern match that no input reaches with a different result"
 },
 "FromSequence.resolve": {
  "note": "with fewer keywords than zero: there are none"
 },
 "Cli.no_options": {
  "note": "only used by examples, or as a length that is recomputed"
 },
 "Cli.bl_len": {
  "note": "only used by examples, or as a length that is recomputed"
 },
 "ModelCluster.make_cluster": {
  "note": "initial slice bounds which change_slice overwrites"
 },
 "MakePlot.makeplot": {
  "note": "constant passed to a plot helper whose result the mask discards"
 },
 "Plot.comparepositions": {
  "note": "the position of the marks of the extracted peaks; then tightened",
  "tightened": [
   "C167"
  ],
  "claim": "C167"
 },
 "Ownership.own_fit_last": {
  "note": "the case of equality; the definition was then shared with the model of the fit (fit_due)",
  "claim": "C215"
 },
 "EnginePdf.counts_free": {
  "note": "two bound names swapped: the same definition"
 },
 "Animate.animate_probs": {
  "note": "equality of two lengths written the other way round: the same test"
 },
 "Baselines.poly_jacobian": {
  "note": "equality of two lengths written the other way round: the same test"
 },
 "Cli.pick_module": {
  "note": "Unreachable branch: no module is visible to eval, so a given module is always declined (C148)."
 },
 "Views.animate_loop": {
  "note": "The branch is an exception of next other than StopIteration; the theorems speak of the exception of drawing that comes first (C183)."
 },
 "Dataset.read_line": {
  "note": "Only the columns left behind in a data set by a refused text change; no claim is made about them."
 },
 "EngineLink.parts_world": {
  "note": "Bound variables of a hypothesis renamed: the same statement."
 }
}
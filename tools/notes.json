{
 "C06": {
  "status": "partial",
  "note": "The coordinate query violates the property: IndexError right of the data, wrap-around to the last point left of it, and the right neighbour is used even when the left one is nearer. C103 proves what it returns."
 },
 "C07": "Exact for every cluster list; see C71 for the violated expectation.",
 "C02": {
  "status": "proved",
  "note": "The _refuted theorem shows only that strictly increasing x is needed."
 },
 "C08": "All clauses proved; see C72.",
 "C12": "All clauses proved for every heap reachable through the API; see C73.",
 "C13": "Proved for every write-back and every optimiser; see C74.",
 "C18": "Full case analysis for every optimiser behaviour; the empty model raises ValueError; see C75.",
 "C21": {
  "status": "proved",
  "note": ""
 },
 "C20": {
  "status": "partial",
  "note": "Refuted: the bound test is idx > len, so the first missing index raises IndexError and negative indices wrap. C104 proves the exact behaviour for every index."
 },
 "C34": "Exact for a fresh evaluator; see C82.",
 "C23": "Round trips between all three formats, rejection above maxwidth; see C76 for negative widths.",
 "C25": "Violated by the code: every call raises AttributeError (refuted for all inputs). The formulas after the failing line are proved to be the derivatives (partial).",
 "C26": "Exact at every interior point; see C77.",
 "C27": "Value, height, stationary point and complete case analysis of outcomes; see C78.",
 "C28": "Exact for positive positions; see C79.",
 "C30": "Exact for every degree and input, including trailing zeros; the Jacobian is C80.",
 "C31": "Value, support, continuity, scalar/array agreement, radius derivative; see C81.",
 "C32": "Refuted: requesting n parameters gives n+1; without a Jacobian function the Jacobian call always raises AttributeError.",
 "C37": "Proved for every optimiser, estimator and statistic; see C83 for objects shared between clusters.",
 "C38": "Proved for every slice; see C84 for deletepeak(-1).",
 "C41": "Proved exactly; see C85.",
 "C43": "Unchanged-on-False for arbitrary scale_at behaviour; exact match when every peak accepts the factor, also instantiated with GaussianOverR; see C87.",
 "C42": "Proved for every optimiser; see C86.",
 "C66": "Proved for every optimiser; see C93.",
 "C46": "Proved for every nonempty sorted grid whose span meets the range; see C88.",
 "C47": {
  "status": "proved",
  "note": "Both classes. An unknown name raises ValueError after the keywords preceding it were stored (no defaults are set then); the PDF checks (dg with effective_dy, automatic qmax, supersample < 1) happen before anything changes."
 },
 "C48": {
  "status": "proved",
  "note": "Proved for both classes, for every subset of settings and every name list. The extra _refuted theorem records that a baseline function combined with a range outside the data makes defaultvars raise IndexError."
 },
 "C57": {
  "status": "proved",
  "note": "Proved for every model set, grid and tolerance. Finding: what is compared is the total squared value of each component, so models with displaced peaks share a class even at tolerance 0 (C57_displaced_peaks_refuted)."
 },
 "C58": {
  "status": "proved",
  "note": "Proved for every prepared object (makeaics then classify), any argsort that sorts. Finding: classes are not invalidated by a second makeaics (C58_stale_classes_refuted)."
 },
 "C60": {
  "status": "proved",
  "note": "Proved for distinct nonzero uncertainties, for AIC and AICc. Finding: a repeated uncertainty enters every model twice (C60_repeated_uncertainty_refuted)."
 },
 "C61": {
  "status": "partial",
  "note": "Refuted: the argument is ignored. C107 proves the default case."
 },
 "C62": {
  "status": "partial",
  "note": "Refuted: the documented key dG is a KeyError and dg takes no keywords. C108 proves the served keys."
 },
 "C51": {
  "status": "proved",
  "note": "Proved for uniform grids (what PDFs have); on other grids the values are not kept (C51_nonuniform_refuted). resampledata: grid, lengths and range; uncertainties never below the smallest given one."
 },
 "C54": {
  "status": "partial",
  "note": "Refuted: the loop can run forever, as fit() re-estimates a peak that prune() removed. C106 proves termination for baselines with few free parameters."
 },
 "C55": "Success, outcome and all-or-nothing proved; see C89.",
 "C56": "Proved for every history of API calls; see C90.",
 "C63": "Proved for every balanced history; see C91.",
 "C64": {
  "status": "partial",
  "note": "Refuted: readstr returns the reading tracer's own counters; read() always raises TypeError (bytes). C109 proves that the other fields round-trip."
 },
 "C65": "setcurrent and run proved; extraction is an oracle that builds new objects; see C92.",
 "C68": "Content for all lists of clusters, snapshot for one cluster; see C94.",
 "C49": "For all fit outcomes (the optimiser, statistic and estimator are parameters); exceptions escaping from a fit end the extraction.",
 "C50": "Nested calls are counted by the fuel of the model; two levels are shown not to suffice.",
 "C44": {
  "status": "proved",
  "note": "Exact expansion, look-ups by number and by pair, validity of the matrix, correlations and warnings, for every model and matrix. C44_reuse_refuted records that an object used twice without clear() keeps the stale names of the first model (outside the statement, which is about new or cleared objects). NaN and negative variances are not modelled (real arithmetic, valid covariance)."
 },
 "C70": "For any functions with symmetric gradients and, with the true derivatives of C26, for every model of GaussianOverR peaks and baselines; see C95.",
 "C71": "Violated by the code (witness theorem). Runs of different lengths are passed to np.array, which raises ValueError (numpy >= 1.24). C07 states exactly when.",
 "C72": "Violated by the code (witness theorem). A rejected request may already have merged clusters; a decreasing pair is accepted.",
 "C73": "Violated by the code (witness theorem). numpy broadcasts a single left-over value to all free parameters of the last part. C12_short_vector shows this is the only exception.",
 "C74": "Violated by the code (witness theorem). The final conversion to normal form rewrites fixed parameters not in normal form. C13 states exactly what is kept.",
 "C75": "Violated by the code (witness theorem). C18_fit_outcome lists all other exceptions.",
 "C76": "Violated by the code (witness theorem). The square of the width is used: absolute value, or NaN below -maxwidth.",
 "C77": "Violated by the code (witness theorem). The area entry is +1 where the derivative is -1.",
 "C78": "Violated by the code (witness theorem). NaN parameters are returned with success; the maximum moves when the new sigma exceeds it; a Gaussian scaled at its own position is wiped out. C27 lists all outcomes.",
 "C79": "Violated by the code (witness theorem). The point returned is a local minimum.",
 "C80": "Violated by the code (witness theorem). Parameter idx multiplies r**(d-idx) but r**idx is returned: wrong for every degree >= 1; C80_jacobian_exact_partial says exactly which entries are right.",
 "C81": {
  "status": "partial",
  "note": "Refuted: the scale derivative uses the sign of the radius (wrong for every negative scale); the normal form changes the curve for every negative radius. C113 proves the cases that are right."
 },
 "C82": "Violated by the code (witness theorem). The evaluator keeps the chi-squared of the first fit it saw.",
 "C83": "Violated by the code (witness theorem). After a failed fit the cluster gets copies back while the objects held on entry stay modified; join_adjacent shares the baseline object.",
 "C84": "Violated by the code (witness theorem). deletepeak(-1) and out-of-range indices delete nothing.",
 "C85": "Violated by the code (witness theorem). The condition is contradictory, so such peaks are never removed.",
 "C86": {
  "status": "partial",
  "note": "Refuted: the abandoned trial values of an undone local fit are installed; IndexError once only protected peaks remain; NaN parameters remove protected peaks. C110 proves never-worse when no fit is undone."
 },
 "C87": "Violated by the code (witness theorem). The second attempt runs for exactly two peaks only (loop over a tuple instead of zip). C43_true_effect says exactly what True means.",
 "C88": "Violated by the code (witness theorem). IndexError when the range lies entirely below or above the data.",
 "C89": {
  "status": "partial",
  "note": "Refuted: the word Infinity passes the NaN/Inf pattern; a failed read has already erased the data. C112: finite when the pattern catches all infinities."
 },
 "C90": "Violated by the code (witness theorem). spdiameter is not copied, copying to itself erases the data, lists are shared.",
 "C91": "Violated by the code (witness theorem). The memory of traces is never emptied; after an exception the next operation does not restart.",
 "C92": "Violated by the code (witness theorem). The index is stored before it is used; the installed model is the stored object.",
 "C93": {
  "status": "partial",
  "note": "Refuted: any own protected peak makes augment raise ValueError, leaving the last trial as the model. C111 proves never-worse when no fit is undone."
 },
 "C94": "Violated by the code (witness theorem). Peak objects of the second and later clusters are shared with the trace.",
 "C95": "Violated by the code (witness theorem). Gaussian has no gradient, so its parameters are converted and its covariance is not; parts=\"baseline\" always raises KeyError; a part without parameters makes transform fail half way; a non-symmetric gradient is propagated as G C^T G.",
 "C99": "The spectrum statement is for power-of-two lengths; other lengths are zero-padded first (modelled), for which length, linearity and realness are proved.",
 "C102": {
  "status": "partial",
  "note": "Refuted: on every grid coarser than 2 pi/(supersample qmax) -- e.g. every Nyquist grid, whose step is 2.5 times that with the default supersample 5 -- jacobian() does not subdivide as value() does and a base direction exists for which the Jacobian is 0 while the value is not constant; value() of a length-one array raises ValueError and jacobian() of a number raises UnboundLocalError."
 },
 "C109": {
  "status": "partial",
  "note": "C109_readstr_partial assumes that the model's text reads back, which C109_written_traces_never_read_refuted shows is never the case with AIC or AICc as long as modelevaluators/__init__.py is empty."
 },
 "C110": "Hypotheses on the statistic are discharged for the shipped criteria by C33/C34's formulas; 'no fit is undone' is stated as: after each fit the list given to it holds the resulting model.",
 "C111": "Hypotheses: strict weak order of evaluators, no fit undone.",
 "C120": {
  "status": "partial",
  "note": "refuted: general theorem plus concrete witness (C120_witness)"
 },
 "C121": {
  "status": "partial",
  "note": "refuted by a concrete run of the whole pipeline; the positive part is C117"
 },
 "C122": "eval, repr and the constructors are parameters; non-ASCII line breaks are not modelled.",
 "C125": {
  "status": "partial",
  "note": "Refuted: any first word with an equals sign shifts key and value."
 },
 "C126": {
  "status": "partial",
  "note": "Refuted for every cluster."
 },
 "C127": {
  "status": "partial",
  "note": "Refuted for every text."
 },
 "C128": {
  "status": "partial",
  "note": "Refuted for every file."
 },
 "C131": {
  "status": "partial",
  "note": "Refuted for all data and settings."
 },
 "C134": {
  "status": "partial",
  "note": "Refuted for every file without qmax."
 },
 "C139": {
  "status": "partial",
  "note": "violated: C139_level_data_refuted shows that the estimated peak exceeds half its height at both ends of every level data set (unless maxwidth limits it)"
 },
 "C141": "Clustering, slicing, model cluster and fit are the models of C01-C11 and C37-C45; estimator, optimiser, statistic and peak/baseline values are arbitrary functions. Numbers are integers with faithful rounding. plain attributes only: defaultvars() has already run.",
 "C142": {
  "status": "partial",
  "note": "Refuted: witness."
 },
 "C143": "Exact arithmetic (rounding is the identity).",
 "C144": "From the values optparse stores; float(), eval(), files, numpy and the extraction itself are parameters. Plotting and logging not modelled.",
 "C147": {
  "status": "partial",
  "note": "Refuted for every file without uncertainties."
 },
 "C148": {
  "status": "partial",
  "note": "Refuted for every text."
 },
 "C149": {
  "status": "partial",
  "note": "Refuted for every file."
 },
 "C150": {
  "status": "partial",
  "note": "Refuted for every file."
 },
 "C151": {
  "status": "partial",
  "note": "Refuted for every file."
 },
 "C152": {
  "status": "partial",
  "note": "C152_saving is proved; two expectations about failures are refuted for all states."
 },
 "C153": "ranges are slices with explicit start and stop, or none; exact reals",
 "C154": "classes other than the listed ones are covered by C154_residual_jacobian under the hypothesis that their own Jacobian is right",
 "C155": {
  "status": "partial",
  "note": "expected behaviour refuted for every degree >= 1 with free leading coefficient"
 },
 "C156": {
  "status": "partial",
  "note": "refuted for every proper sub-range with nonzero residual; proved for the full range"
 },
 "C157": {
  "status": "partial",
  "note": "refuted for negative area (position/area entry); proved for positive area"
 },
 "C158": {
  "status": "partial",
  "note": "refuted for every fit in which peaks change places or are removed, and for every undone fit; proved otherwise"
 },
 "C159": "If some spread is zero numpy works with NaN or infinity; then the model says None and the theorem only says that this is the reason.",
 "C166": {
  "status": "partial",
  "note": "Refuted: both return None."
 },
 "C169": {
  "status": "partial",
  "note": "Refuted for every list whose first uncertainty exceeds the last."
 },
 "C170": {
  "status": "partial",
  "note": "Refuted for every file; follows from C127."
 },
 "C172": {
  "status": "partial",
  "note": "Violated: the logger's own level and the rejected names; two refuted theorems."
 },
 "C173": {
  "status": "partial",
  "note": "Violated (setlevel(0), upper-case names); unknown names and objects are proved to be rejected without effect."
 },
 "C174": {
  "status": "partial",
  "note": "Violated in its second half (second argument rejected); the other cases are proved."
 },
 "C177": {
  "status": "partial",
  "note": "Violated: for every plot the number of drawn peaks depends on fill_individual only."
 },
 "C178": {
  "status": "partial",
  "note": "Violated for all inputs."
 },
 "C180": {
  "status": "partial",
  "note": "Violated for all such states; the refuted theorems are universal."
 },
 "C182": {
  "status": "partial",
  "note": "Violated for all such states; the refuted theorems are universal."
 },
 "C183": {
  "status": "partial",
  "note": "Violated for all such states; the refuted theorems are universal."
 },
 "C185": {
  "status": "partial",
  "note": "Violated for all such states; the refuted theorems are universal."
 },
 "C187": {
  "status": "partial",
  "note": "Violated: universal theorems for each loss."
 },
 "C189": {
  "status": "partial",
  "note": "Violated: two concrete headers, for every float()."
 },
 "C191": {
  "status": "partial",
  "note": "violated by the code; refuted"
 },
 "C193": {
  "status": "partial",
  "note": "violated by the code; refuted for every data set and every number of points"
 },
 "C194": {
  "status": "partial",
  "note": "violated by the code; refuted"
 },
 "C196": {
  "status": "partial",
  "note": "violated by the code; refuted"
 },
 "C197": {
  "status": "partial",
  "note": "tables and complete file proved; loading refuted (loadaics raises for every file)"
 },
 "C199": {
  "status": "partial",
  "note": "Violated by the code: the theorem shows that every PeakExtraction raises."
 },
 "C198": "Exact condition for PDFPeakExtraction.writestr to return a text.",
 "C200": "Under the named hypotheses on repr/eval (record python), the edy search, the evaluator lookup and ModelCluster.factory; that these fail in the code is C126/C127.",
 "C201": {
  "status": "partial",
  "note": "Proved: the only possible exception is ValueError; refuted: an extraction with idle fits raises it."
 },
 "C202": {
  "status": "partial",
  "note": "Proved at joins and at the left end; refuted at the right end (border read with the cluster number)."
 },
 "C203": {
  "status": "proved",
  "note": "Proved for all calls; that superfluous keywords are not noticed is stated separately (C203_unknown_keywords_refuted)."
 },
 "C204": {
  "status": "proved",
  "note": "Proved; with unsorted r points outside can go unnoticed (C204_every_point_outside_warns_refuted), which is outside the statement."
 },
 "C205": {
  "status": "partial",
  "note": "Proved while the lists given are unchanged; refuted after they change (C205_text_describes_the_baseline_refuted)."
 },
 "C206": "Proved for all data, baselines and optimisers.",
 "C207": {
  "status": "proved",
  "note": "Proved. Separately: a part with NaN is not equal to itself, and equal parts may differ in static_owner (C207_reflexive_refuted, C207_interchangeable_refuted)."
 },
 "C208": {
  "status": "proved",
  "note": "Proved. Separately: a reset object does not compare equal to a fresh one although it goes on alike (C208_reset_is_fresh_refuted)."
 },
 "C209": {
  "status": "partial",
  "note": "Frames proved (C209_frames); that the first best result is overwritten and shown wrongly is proved for all runs (C209_results_overwritten_refuted, C209_wrong_peaks_refuted)."
 },
 "C210": {
  "status": "proved",
  "note": "Proved for all tables; matplotlib calls may raise."
 },
 "C211": {
  "status": "partial",
  "note": "Violated; proved that the shown model is stale and the first dot misplaced in every run."
 },
 "C212": {
  "status": "partial",
  "note": "Violated for every input (C212_plot_refuted)."
 },
 "C213": {
  "status": "proved",
  "note": "Proved for all pointwise functions and slices."
 },
 "C214": {
  "status": "partial",
  "note": "Violated; the three exceptions are proved for all inputs (C214_*_refuted)."
 },
 "C215": {
  "status": "proved",
  "note": "extract_single and the whole of PDFPeakExtraction.extract; that the ownership model gives the extraction of Extract.v is C215_same_extraction."
 },
 "C216": {
  "status": "partial",
  "note": "Violated by the code: concrete runs of extract() twice and of PeakStability.run."
 },
 "C217": "t_fivepercent is the floating-point product 0.05 * range, abstract.",
 "C218": "Positions compare as in C38 (NaN last). For extract() of a PDF the exception is any undone last fit.",
 "C219": {
  "status": "proved",
  "note": "TraceRun.v logs the tracer calls next to Extract.v/PdfExtract.v; nesting by closure of balanced logs, steps by the loop invariant of C49, prunings by C42's argument; joined to Tracer.v by C63."
 },
 "C221": {
  "status": "proved",
  "note": "Quantified over every behaviour of leastsq; the no-NaN part is for models without NaN parameters (strict), since fixed NaN parameters stay NaN. Jacobian and NaN conditions of the last part are those refuted without them in C75."
 },
 "C222": {
  "status": "proved",
  "note": "Exact arithmetic (integers in any common unit, real criterion). The condition that no fit is undone is needed: see the refutations C86 (prune) and C93 (augment)."
 },
 "C223": {
  "status": "proved",
  "note": "Instance of C118 and C119 (PdfExtractProps) with the optimiser of C221 (EngineLink.parts_engine over Parts.fit); assumptions on peak functions: normal forms keep the number of parameters, are idempotent and make no NaN; termination ripples convert parameters as their base function does."
 },
 "C224": "A token-level parser of Python's test grammar (or, and, not, if-else, parentheses; operands opaque); the joined text parses to the conjunction for every list of well-formed texts.",
 "C225": {
  "status": "partial",
  "note": "Violated by the code: unbalanced text accepted, empty list refused."
 },
 "C226": "Corollary of C40 (exact set removed by cleanfit) and C37 (what is kept) for every outcome of the optimiser.",
 "C227": {
  "status": "proved",
  "note": "Coordinates are integers (fixed point); rnd and rnd' are the roundings of subtractions in the two units and are assumed to commute with the factor (true of exact arithmetic and, in floating point without overflow and underflow, of powers of two)."
 },
 "C228": {
  "status": "proved",
  "note": "Exact real arithmetic; the sort used for the baseline is assumed to put the scaled values in the same order as the values."
 },
 "C229": {
  "status": "proved",
  "note": "Exact real arithmetic. Gaussian peaks and wrapped functions are not instantiated (their part of the claim is the generic theorem with its hypothesis of proportionality)."
 },
 "C230": "Flocq binary64: rounding to nearest even with gradual underflow after every operation; no overflow, x**2 taken as the rounded square. sin is only assumed to return numbers in [-1, 1], arcsin is arbitrary.",
 "C231": "As C230, with arcsin and sin accurate to d (and arcsin returning doubles). Non-vacuity: the true functions, rounded, are accurate to 2^-52.",
 "C232": {
  "status": "partial",
  "note": "Violated; witnesses proved in the Flocq model. The hypotheses on sin at the ends are shown to hold for the true functions, rounded. A width of 2^-29 of the maximum is far below any grid in practice."
 },
 "C233": "Flocq binary64: rounding to nearest even after every operation, gradual underflow, no overflow. Sums are modelled as any tree of rounded additions in any order.",
 "C236": "Flocq binary64: rounding to nearest even after every operation, gradual underflow, no overflow. Sums are modelled as any tree of rounded additions in any order.",
 "C234": "Flocq binary64: rounding to nearest even after every operation; Python's conversion of integers to doubles is rounded as well.",
 "C235": {
  "status": "partial",
  "note": "Violated; for AIC (AICc is not stated)."
 },
 "C237": "Flocq binary64, unbounded exponent above. Discharges the hypotheses on rounding of C01-C11, C103 and (for powers of two) C227.",
 "C238": "Flocq binary64: rounding after every operation, gradual underflow, no overflow (a huge area over a tiny width would overflow to infinity in numpy).",
 "C239": {
  "status": "partial",
  "note": "Violated; follows from C232. The hypothesis on the sine is shown for the true functions, rounded."
 },
 "C240": "The criterion is defined separately in exact arithmetic (FloatOrderProps.criterion). The values of the models are the doubles the code computed; overflow is not modelled.",
 "C241": "The world of ModelCluster.v with the statistic of FloatEval.v; C241_unit: the exact criterion is that of C222. Pruning and augmenting compare residuals with subtracted peaks and are covered by C222 in exact arithmetic only.",
 "C242": "FloatBase.polyval_f is the Horner scheme of numpy.polyval with rounding after every operation; the exact polynomial is a separate definition.",
 "C243": "r**3 is taken as the rounded cube; overflow is not modelled.",
 "C244": {
  "status": "partial",
  "note": "A genuine, if tiny, violation: exhibited for every radius that is a power of two (where r / radius is exact); r**3 is taken as the rounded cube, which every accurate pow returns here."
 },
 "C245": "FloatResidual.v (rounded residual of Residual.v) against FloatEval.v; MINPACK's own arithmetic is not modelled, only the sum of squares it minimises.",
 "C246": "The values of the parts are given (C238, C242, C243 for those of peaks and baselines); overflow is not modelled.",
 "C247": "FloatCorr.v. np.sqrt is correctly rounded and nothing overflows; the lookup of the entries is in Covariance.v (exact arithmetic).",
 "C248": {
  "status": "partial",
  "note": "Refuted: 3/(sqrt 3 * sqrt 3) is 1 + 2^-52 in binary64 arithmetic; -(1 + 2^-52) for covariance -3. By C247 the excess is never more than 2^-49."
 },
 "C249": "FloatCorr.v. Every rounding commutes with a power of two in the normal range (Flocq: FLT agrees with FLX there); no overflow."
}
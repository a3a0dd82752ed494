# Formal model of diffpy.srmise in Rocq (Coq 8.16.1)

## Approach

* Models are shallow, total Gallina functions that mirror the Python branch by
  branch, each citing the file and lines it models.  Python exceptions are values
  (`Err e`, Prelude.v).  Mutation is a function returning the new state; where a
  Python call can raise *after* having mutated, the model returns the mutated
  state together with the error.  Where aliasing matters (ModelParts, data sets,
  traces, stability results, the order a fit leaves in the caller's list) there is an
  explicit heap or the list the caller holds is returned separately.
* External numeric engines (MINPACK `leastsq`, the estimation heuristics, the
  evaluators seen from the clustering code, argsort's choice among ties, argmax's
  choice among ties, FFT, file system, float parser) are universally quantified
  function arguments ("oracles"): theorems hold for every behaviour of the oracle,
  including raising.  Behaviour that is assumed is a hypothesis in the theorem
  (`argsort_ok`: a stable or unstable sorting permutation; `argmax_ok`: a maximal
  element; `engine_shape`: the optimiser does not change the number or flags of
  peaks; `engine_tame`, `engine_no_nan`: it raises only fit errors / produces no NaN).
* Loops that the code bounds by nothing obvious carry fuel; running out of fuel is a
  separate outcome (`None`), and the theorems give fuel that always suffices.
* Numbers.  Index logic uses `nat`/`Z`.  Clustering coordinates are `Z` with an
  explicit rounding function `rnd` on subtraction (a finite set of doubles can
  be scaled to integers; rounding to nearest is monotone and sign-faithful,
  which is all the theorems assume, and C237 proves it of binary64; `rnd = id` is exact
  arithmetic).
  Analytic functions use the standard-library reals `R` (real arithmetic, not
  IEEE doubles), with `option R` where numpy would give NaN/inf; FloatWidth.v repeats
  the conversions of widths, FloatPeak.v the values of
  peaks, FloatBase.v those of baselines and FloatEval.v the evaluators, with binary64 rounding after
  every operation (Flocq).
* Each area has a model file (`Foo.v`), proof files (`FooProofs.v`, ...) and a
  property file (`FooProps.v`) with the theorems `Cnn_*`, `Print Assumptions`
  beneath each, and non-vacuity examples.  Specification predicates are in
  `FooSpec.v` or at the top of the property file.
* Where the code violates a property the theorem is named `…_refuted` and
  exhibits the witness; where only a part is provable, `…_partial`.  An expectation
  the code violates is a property of its own (C71-C95 and a few earlier ones), so that
  every other property is proved as stated.

## Trusted base

1. Coq 8.16.1's kernel (and `vm_compute`, used for closed examples).
2. Axioms.  ASSUMPTIONS.md (generated by `tools/assumptions.py`) lists the output of
   `Print Assumptions` for every property theorem.  Theorems over `nat`, `Z`, lists and
   heaps are closed under the global context.  Theorems over `R` use only the standard
   library's `ClassicalDedekindReals.sig_forall_dec`, `ClassicalDedekindReals.sig_not_dec`,
   `FunctionalExtensionality.functional_extensionality_dep` and
   `Classical_Prop.classic` (the last through `Coq.Reals`, Coquelicot's and Flocq's proofs).
   No axiom, parameter, functor or module type of our own.
3. The faithfulness of the model to the Python text, which was read and not run: the
   citations beside each definition are the audit trail.  Simplifications are stated in
   those comments and summarised below.
4. Semantics of numpy/Python used: slicing and negative indices, `np.array` of ragged
   lists raising ValueError (numpy >= 1.24), broadcasting of length-1 assignments,
   `searchsorted`, dict/`is` semantics, integer division.

## What is modelled, per module of /repo/src/diffpy/srmise

| source | model | not modelled |
|---|---|---|
| dataclusters.py | DataClusters.v: constructor, clear, reset, `__next__`, makeclusters, find_nearest_cluster(2), find_adjacent_clusters, combine_clusters, cut, n_points; Views.v: cluster_boundaries, plot, animate; ClusterEqProps.v: `__eq__` | styles of the drawings |
| modelparts.py | Serial.v (writestr), Parts.v, PartsFit.v (heap of ModelPart objects): constructor, copy, changeowner, compress/update, npars, pack/unpack, value, transform to normal form, fit around the optimiser ; Residual.v: residual, residual_jacobian, covariance scaling | MINPACK itself, `__str__` |
| basefunction.py | Functions.v (safefunctionlist order, factory bounds, constructor checks), Parts.v and ValueKinds.v (value with range), CovTransformProps.v (format dispatch of the two transforms), Serial.v (writestr/factory text) | pgradient; eval and the import of the class are parameters |
| peaks/gaussianoverr.py, gaussian.py | PeakFuncs.v: formats, value, Jacobian, gradient, max, scale_at; Estimate.v: estimate_parameters | `__main__` demo |
| peaks/base.py | MatchAt.v (match_at), ModelCluster.v (sort), Serial.v (factory; baselines/base.py likewise) | |
| peaks/terminationripples.py | Ripples.v: extend_grid, cut_freq (exact DFT), value, jacobian for arrays, ranges and numbers | FFT numerics |
| baselines/polynomial, nanospherical, arbitrary, fromsequence | Baselines.v, FromSequence.v, Serial.v (FromSequence.readxy), Estimate.v (Polynomial.estimate_parameters) | Arbitrary's estimate (the user's function), fromsequence's spline |
| modelevaluators/* | Evaluators.v | |
| modelcluster.py ModelCovariance | Covariance.v, CovTransformProps.v | number formats of the text (entries: Views.v) |
| modelcluster.py ModelCluster | ModelCluster.v (constructor, slices, fit, contingent_fit, cleanfit, replacepeaks, join_adjacent, change_slice, residual), Prune.v, augment in Prune/AugmentProps, reduce_to in MatchAt, Serial.v (writestr, factory up to the evaluator); Views.v: plottable | |
| peakextraction.py | Vars.v (setvars, defaultvars, getrangeslice), Extract.v (extract_single main loop, recursion), Serial.v (read, readstr up to where they raise), Files.v (write), ExtractText.v (writestr and all steps of readstr); EstimatePeak.v (estimate_peak, add_peaks) | number formats |
| pdfpeakextraction.py | Resample.v (resampling, errorscale), Nyquist.v (refinement loop), LoadProps.v (loadpdf), PdfExtract.v (extract(), fit() as a whole, with fit_single, and what they do to the user's baseline object, with Ownership.v), Qmax.v (find_qmax), Summary.v (writepwastr) | text of the metadata section, number formats |
| pdfdataset.py | Dataset.v: readStr (data part), copy, setvar/getvar, clear; DatasetText.v: writeStr and the header part of readStr with its regular expressions (a backtracking matcher like Python's); Files.v: write, read, crash points | number formats (%g, %.2f, %s and float() are parameters) |
| multimodelselection.py | MultiModel.v: classification, best-model queries, AIC tables, get; Files.v: file of makeaics, loadaics; Animate.v: animate_probs, animate_classprobs, plot3dclassprobs | styles of the drawings |
| peakstability.py | Stability.v: run, setcurrent; Serial.v: load; Views.v: plot, animate; Files.v: save | |
| srmiselog.py | Tracer.v: TracePeaks counters, emit, readstr; TraceFilter.v: setfilter and the filter at emit; Files.v: write, emit to files; TraceRun.v: the calls of the tracer made by an extraction; LogLevels.v: setlevel, setfilelevel, addfilelog, liveplotting, and the part of Python's logging that decides which handler emits a message | log file contents, live plotting windows |
| applications/extract.py | Cli.v: meaning of the options, loading, settings, saving | argparse itself, plotting, text of messages |
| applications/plot.py | Plot.v: comparepositions, dgseries, readcompare, main; MakePlot.v: curves, limits and layout of makeplot | styles, ticks, labels, annotation, argument parser |

## Properties and proof techniques

| ids | model | technique |
|---|---|---|
| C01-C04, C09-C11 | DataClusters state machine | invariant over all operation sequences (`reach`), simulation of the run by a pure function for C09 |
| C05, C06, C103 | nearest-cluster search | case analysis over well-formed lists; C06 refuted at the edges, exact behaviour proved |
| C07, C08, C71, C72 | adjacency scan, merge | induction on the cluster list |
| C12-C18, C73-C75 | heap of parts | heap invariant, induction on model lists, frame lemmas |
| C19-C21, C104 | function lists | induction on dependency rank; case analysis |
| C22-C29, C76-C79 | peak functions over R | algebra, Coquelicot derivatives, monotonicity by sign of derivative; the Gaussian integral (GaussIntegral.v) by the classical auxiliary function, for the areas of C29 |
| C30-C32, C80, C81, C105, C113 | baselines | induction on degree; derivatives |
| C33-C36, C82 | evaluators | inequalities |
| C37-C41, C45, C83-C85 | ModelCluster with oracles | case analysis on every outcome, permutations and sortedness |
| C42, C66, C86, C93, C110, C111 | prune/augment loops | loop invariants, fuel measure = number of peaks |
| C43, C87 | match_at | induction on peak list; instantiated with C27 |
| C44, C70, C95 | ModelCovariance | finite sums, block-diagonal algebra, Cauchy-Schwarz; instantiated with C26 |
| C46-C48, C88 | settings and ranges | sorted lists, records |
| C130-C134 | setdata, loadpdf, baseline estimation | frame lemmas of the default steps |
| C135-C140 | estimate_parameters over exact reals, partial numpy operations (None = NaN) | weighted-mean bounds, odd symmetry, least squares; C139 refuted |
| C141-C143 | estimate_peak, add_peaks on top of the clustering and model-cluster models | completed clustering covers every point, coordinate lookup (C05, C103), case analysis of fit; C142 refuted |
| C49, C50, C69 | extraction loop | simulation invariant with the clustering state machine; measure on recursion |
| C51-C54, C106 | resampling, Nyquist loop | algebra on R; loop measure; cycle exhibited for C54 |
| C55, C56, C67, C89, C90, C112 | data sets | list predicates, heap invariant over histories |
| C57-C62, C107, C108 | multimodel tables | list induction, maxima |
| C96, C97 | neighbourhood queries of the border | sorted lists |
| C98-C102 | termination ripples | exact DFT inversion over R, floor/ceil, linearity of the cut, derivative of finite sums |
| C114-C121 | the whole of extract()/fit() | composition of C46, C51, C49, C54, C42, C37, C69; `chain` relation through all fits; concrete runs for C120, C121 |
| C122-C129 | text of functions, parts, models | strings as lists of characters; induction on lines, list of functions by position |
| C144-C152 | applications/extract.py: options, loading, settings, saving; float(), eval(), files as parameters | settings as a list of optional chunks with distinct names, composed with C47, C48, C132, C133 |
| C153-C157 | residual, residual_jacobian (slices, packing, one row per free parameter), covariance scaling and clean-up in ModelParts.fit; reals | slices as lists, derivative of a sum of parts, class Jacobians from C24, C31, C113; C155-C157 refuted |
| C158 | the model copied into the covariance object by ModelCluster.fit | C37 and C40; refuted |
| C159, C160 | find_qmax (interpolation, imaginary part of the DFT, ratio of spreads, second difference, last maximum); reals, a ratio that is not finite makes the outcome None | DFT as a sine sum, C53 for the ratios, invariants of argmax; a unit impulse on 8 points as example, by bounds on sines |
| C161 | writemetadata, readmetadata on texts; repr and eval are parameters | lines of a joined text, concrete field names |
| C162 | the contents of writepwastr (tables, counts, baseline, peaks) as a record, not the header and number formats; the order of a set is arbitrary | C19 for the dependency order; sorted permutation of 0..n-1 for the labels |
| C163-C166 | access to parameters and parts by name, index and slice (no step), ModelParts.transform, covariance and pgradient (both return None) | lists; refuted for C166 |
| C167-C170 | the data drawn by comparepositions and dgseries (reals), readcompare and main of the plotting program; no axes or styles | lists; C127 for the program; refuted for C169, C170 |
| C171-C174 | logger and handler levels, root logger level as a parameter | invariant over all call histories |
| C175-C178 | makeplot over reals; model values as functions of a grid; a completely masked residual raises | arange lengths, minima and maxima; C51 |
| C179-C185 | plottable, covariance text (entries, not digits), cluster_boundaries, plot/animate of clusters and of stored results; drawing reads the state and may raise | list lemmas, C44, frames of setcurrent |
| C186-C189 | text of a data set over lists of ASCII characters; re.search as a backtracking matcher in continuation style | soundness of the matcher (what a match consumes), greedy-repetition lemmas, lines that cannot match, composed over the lines of the text; C55 for the data lines |
| C190-C197 | disk = name to contents, one open file with a buffer; every call of the operating system may fail, buffered bytes reach the disk in pieces at any time; a crash is any state of an execution | invariant over all executions; composed with C186 for data files and with Tracer.v for traces; C191, C193, C194, C196, C197 refuted |
| C198-C200 | text of an extraction as lines, functions numbered in safe order, five optional columns; repr, eval, %g, float() are parameters with round-trip hypotheses | exact condition for the text to be made; reader steps applied to the written lines, section by section; C199 refuted; instance in ExtractTextExamples.v |
| C201, C202 | extraction loop of Extract.v with tame oracles; the optimiser may refuse a model without free parameters with ValueError (C66) | outcome predicate carried through loop, joins, nested calls (C41, C42, C49, C50, C66); neighbourhood by searchsorted lemmas; right end refuted |
| C203–C205 | FromSequence.v: constructor, evaluation, text; lists are addresses in a heap; spline, files, float() oracles | case analysis of the signatures against a relational specification; sortedness; keywords, unsorted r and aliasing refuted |
| C206 | extraction loop of Extract.v | the baseline is part of the loop invariant (C49); case analysis of the last fit |
| C217 | default_edy of Extract.v | list induction; largest and smallest are specified by membership and bounds |
| C218 | extraction of Extract.v, PdfExtract.v | accepted fits sort and then only delete; induction over the rounds of pruning |
| C219 | TraceRun.v: log of the tracer calls made by extract_single, prune and extract, next to Extract.v, Prune.v, PdfExtract.v | balanced logs closed under concatenation and bracketing; induction on the nesting; loop invariant of C49; C63 for the tracer |
| C220 | StabilityPdf.v: PeakStability.run (Stability.v) with PDFPeakExtraction.extract (PdfExtract.v) as its extraction | C215 for the first hypothesis, a fit lemma for baselines without free parameters for the second; induction on the uncertainties over C65 |
| C221 | EngineLink.v: the call of ModelParts.fit in ModelCluster.fit (heap model of Parts.v behind the abstract optimiser of ModelCluster.v) | frame lemmas of PartsProofs/PartsFit over run_lsq, pack and the clean-up loop; then C42, C50, C69 and C201 (a model or ValueError) instantiated |
| C222 | CritLink.v: ModelCluster.quality with the evaluators of Evaluators.v as the statistic of ModelCluster.v, Prune.v | the hypotheses of C37, C110 and C111 on the statistic proved of AIC and AICc (C34, C35); residual algebra in exact arithmetic |
| C223 | EnginePdf.v: ModelParts as the peaks of PdfExtract.v, termination ripples with the conversions of their base | instance of C118 and C119 with the optimiser of C221; whole extraction as an example |
| C224, C225 | TraceFilter.v: recursive-descent parser of Python's boolean expressions over tokens; operands are opaque | the parser is stable under a closing parenthesis and independent of its depth bound; left-to-right evaluation; two refuted by witnesses |
| C226 | fit and cleanfit of ModelCluster.v | C40 and C37 composed |
| C227 | two objects of DataClusters.v in different units | simulation over every operation; argsort of distinct values is unique; the two roundings commute with the scaling |
| C228 | Estimate.v in two systems of units | every step commutes with the scaling (homogeneity lemmas for min, max, division, square root); extends C138 |
| C229 | Residual.v and Evaluators.v in two units of intensity | parameters marked as proportional to intensity; putting scaled values into a scaled model is scaling the model; chi-square of scaled, permuted points |
| C230–C232 | FloatWidth.v: the width conversions of PeakFuncs.v in binary64 arithmetic (Flocq), rounding after every operation | monotonicity of rounding, half-ulp bounds, Lipschitz bound of sine; C232 refuted by exact roundings |
| C233–C236 | FloatEval.v: the evaluators of Evaluators.v in binary64 arithmetic (Flocq); sums are trees of rounded additions | monotonicity of rounding; relative closeness (1 + 2^-52)^k composed over terms and trees; C235 refuted by absorption of the penalty |
| C237 | DataClusters.v's rounding parameter instantiated by binary64 subtraction on multiples of 2^-1074 | Flocq: formats, exactness of small integers, monotonicity |
| C238, C239 | FloatPeak.v: the values of PeakFuncs.v in binary64 arithmetic, with the constants c1 and c2 | lower bounds of the denominators, monotonicity of rounding; C239 from C232 |
| C240, C241 | FloatCrit.v: CritLink.v with the statistic of FloatEval.v; exact criterion in FloatOrderProps.v | closeness (1 + 2^-52)^k of penalties and statistics composed with C233; C241 from C37 and C240 |
| C242–C244 | FloatBase.v: values of the Polynomial and NanoSpherical baselines of Baselines.v in binary64 arithmetic | monotonicity and closeness (1 + 2^-52)^k along Horner's scheme; absolute errors of the shape factor step by step; C244 refuted by evaluating the roundings at 2 - 3 * 2^-52 |
| C245 | FloatResidual.v: the residual of Residual.v in binary64 arithmetic | closeness (1 + 2^-52)^k of squared residuals and of the terms of chi-square, composed with C233's sums |
| C246 | FloatTotal.v: ModelParts.value at a point in binary64 arithmetic | error of a chain of additions by induction; C233's sums for parts that are not negative |
| C247 | FloatCorr.v: getuncertainty and getcorrelation in binary64 arithmetic | closeness (1 + 2^-52)^k through roots, product and quotient; the subnormal edge by hand |
| C248 | FloatCorr.v | refuted by the variances 3, 3 and the covariance 3: each rounding pinned by its half-ulp |
| C249 | FloatCorr.v | rounding commutes with powers of two in the normal range (FLT = FLX there) |
| C207, C208 | equality of parts over the heap of Parts.v, of DataClusters over its record | equality decides equality of the observed contents; congruence of value, npars, unpack |
| C209–C212 | displays of ModelSelection over the objects of Stability.v; tables are partial functions, a frame is what is on the screen; matplotlib may raise | loop invariant: content of the shared list is that of the last best result other than the first; C209, C211, C212 refuted |
| C215, C216 | Ownership.v, PdfExtract.v (`owned`): which clusters hold the user's baseline object | invariant of the extraction loop: once the first point is clustered the first model holds a copy; concrete runs for C216 |
| C213, C214 | ValueKinds.v: value and jacobian for arrays, lists, Python and numpy numbers | list lemmas on slices against a separate definition of Python's slices |
| C63-C65, C68, C91, C92, C94, C109 | tracer, stability | state machine induction, heaps |

## Findings (behaviour of the code that contradicts its documentation)

Each has a `_refuted` theorem with a witness unless marked (text).

* find_nearest_cluster2: IndexError right of the data, wraps to the last point left of it, uses the right neighbour even when the left is nearer (C06).
* find_adjacent_clusters raises ValueError for runs of different lengths (C71); combine_clusters is not atomic on rejection and accepts decreasing pairs (C72).
* pack_freepars broadcasts a single left-over value (C73); a fit rewrites fixed parameters not in normal form (C74); exceptions other than SrMiseFitError escape fit (C75).
* factory accepts index == len and raises IndexError (C20).
* Negative widths accepted or turned into NaN (C76); gradient sign for negative areas (C77); scale_at returns NaN with success, moves the maximum, wipes out a Gaussian scaled at its position (C78); GaussianOverR.max is a minimum for negative positions (C79).
* In double precision a nanoparticle baseline of radius 2^j is positive three units in the last place below twice the radius (C244).
* In double precision the correlation of a variable of variance 3 with itself is 1 + 2^-52, above one (C248).
* In double precision all widths up to 2^-29 of the maximal width become one internal value and come back as 0; a peak of exactly the maximal width 1.21875 written as sigma is refused when read back (C232).
* From a chi-square of about 2^56 on (tiny error bars) AIC does not see the number of parameters (C235).
* A peak estimated from level data is 1.44 times as wide as the data (C139).
* Gaussian Jacobian always raises AttributeError (C25); Arbitrary(npars=n) has n+1 parameters, its missing Jacobian raises AttributeError (C32); polynomial Jacobian reversed (C80); nanospherical scale derivative and normal form (C81).
* TerminationRipples: the Jacobian does not subdivide coarse grids as value() does; length-one arrays and single numbers fail (C102).
* PDFPeakExtraction.fit changes the user's initial_peaks and baseline, also when the fit is undone (C120); after extract() with qmax a result can have a peak without ripples if everything was pruned (C121).
* setdata keeps uncertainties, range and results of the previous data and stores rejected data (C131); after loadpdf the qmax found in the data is never used, because a missing qmax is reported as 0 (C134).
* A reused evaluator keeps the first chi-squared (C82).
* Undone fits leave shared objects modified (C83); deletepeak(-1) deletes nothing (C84); misplaced peaks are never removed in join_adjacent (C85); prune can end worse, raise IndexError with protected peaks, lose protected peaks to NaN (C86); augment raises ValueError with protected peaks (C93); match_at's second attempt loops over a tuple (C87).
* ModelCovariance: stale names after reuse (C44), Gaussian covariances not converted, parts="baseline" raises, half-converted models, G C^T G for non-symmetric gradients (C95).
* getrangeslice raises for ranges outside the data (C88); Nyquist refinement can cycle for ever (C54).
* Data sets: "Infinity" uncertainties accepted, failed read erases data, spdiameter not copied, self-copy erases data (C89, C90).
* Multimodel: classbestdgs/modelbestdgs ignore their argument (C61), documented key dG is a KeyError (C62).
* Tracer: readstr returns its own counters, read() always raises TypeError, memory never emptied, exceptions leave levels open, traces share peak objects (C64, C91, C94).
* Text: ModelCluster.factory looks AIC/AICc up in an empty package, so no written model or trace can be read (C126, C109); PeakExtraction.read/readstr raise for every text (a bad escape in a pattern) after clearing the object, PeakStability.load with them (C127); equals signs inside function texts are misread (C125); FromSequence drops the first character of the data (C128).
* PeakStability: bad index stored before use, refits change stored results (C92).
* Fits: wrong derivatives with polynomial baselines (C155); uncertainties too small for fits over part of the data (C156); wrong sign of covariances after a negative area is made positive (C157); the covariance returned describes the model before sorting, cleaning and undoing (C158).
* Logging: addfilelog ignores its level in effect and rejects the names setlevel accepts, setlevel(0) hides messages, rejected calls have effects (C172-C174). makeplot: show_individual is not used, residual alone or dg_height without stability fail (C177, C178).
* PeakExtraction.plot ignores the value of joined (C180); cluster_boundaries flattens the points, so DataClusters.plot and animate always raise (C182, C183); PeakStability.animate discards an extraction that is not a selected result (C185).
* PDFDataSet.writeStr followed by readStr: neutron data written by a user whose login contains "xray" become X-ray data, spdiameter is never written, one zero uncertainty loses the whole column, an empty data set cannot be read back (C187); a unit directly after a header number truncates or hides it ("qmax=25.5A" gives 25, C189).
* A PeakExtraction (base class) can never be written (C199); writing raises TypeError without a clustering resolution or when the extracted model has peak_funcs None (C198); a row of data with too few or too many values is read without complaint (text, peakextraction.py:514).
* Files: nothing is replaced atomically (C191), a data file cut short is read without complaint (C193); traces and stability results empty their file before the text is made (C194); the next operation overwrites the trace files (C196); loadaics always raises after replacing the table (C197).
* Plots: results stored with descending uncertainties are not drawn (C169); srmise-plot cannot draw any file (C170). covariance() and pgradient() of models and functions return None (C166).
* Command line: files without uncertainties run with uncertainty 0, two --dg modes raise (C147); --pf and --me never work (C148); --no-nyquist has no effect (C149); --bseq is dropped (C150); --bsrmise always raises and saved settings are ignored (C151); failures to save are not handled (C152).
* fit_single works on the user's own initial_peaks and baseline objects (text).
* When a cluster reaches the right end of the data the border is read with the number of the cluster (peakextraction.py:968-969): the peak next to x[k] is re-examined instead of the last one (C202), and an extraction with well-behaved fits can end with ValueError (C201).
* FromSequence(x=xs, y=ys, anything=...) is accepted (C203). Only the first and last r are compared with the range of the points (C204). The lists given are kept by reference for writing: changing them later changes the text but not the baseline (C205).
* A part with a NaN parameter is not equal to itself; == ignores static_owner (C207). A reset DataClusters is not equal to a fresh one: the last cluster is 0 instead of None (C208).
* animate_probs overwrites the peaks of the stored result that is best at the first uncertainty (C209); animate_classprobs keeps showing the same member of a class (C211); plot3dclassprobs always raises under Python 3 (C212).
* extract() may change the baseline object the user has set, also through a fit that is rejected, when the first point of the range is the highest one; then the result shares the object, a second extract() starts from the changed baseline, and PeakStability's stored results change with later runs (C216).
* value() and jacobian() ignore the range when r is a list, raise for a numpy number with a range, and give NaN outside the range where r is infinite (C214).

## Testing the theorems

`seeded/LOG.jsonl` records the edits made to scratch copies of the model, each a realistic
bug, and which theorems stopped proving.  A theorem that survived an edit that breaks its
English claim was tightened; the log names it.

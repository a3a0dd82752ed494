import json
S='src/diffpy/srmise/'
P=[]
def p(title,stmt,quant,why,*anchors):
    P.append(dict(id='C%02d'%(len(P)+1),title=title,statement=stmt,quantifier=quant,why_tests_cant=why,anchors=[S+a for a in anchors]))
D='dataclusters.py:'
# ---- DataClusters
p("Clusters stay well formed",
  "At every moment between construction and exhaustion of a DataClusters iterator the reported clusters are index intervals [lo,hi] with 0<=lo<=hi<n, listed in strictly increasing order and pairwise disjoint; operations that raise leave them so.",
  "every data set (any length n>=1, any y, strictly increasing x), every resolution >=0, every finite sequence of next()/reset_clusters()/combine of adjacent clusters",
  "A unit test fixes one data set and a couple of steps; the claim is an invariant of every reachable state for every data set.",
  D+'DataClusters.__next__',D+'DataClusters.combine_clusters',D+'DataClusters.reset_clusters',D+'DataClusters._setdata')
p("Every successful next() makes progress on the right point",
  "A next() that returns has just clustered a point (lastpoint_idx) that was not in any cluster before, all previously clustered points remain clustered, and that point is the one with the largest y among the points that were unclustered; the cluster reported in lastcluster_idx contains it.",
  "every reachable clustering state over every data set and resolution",
  "The documented guarantee 'next() always adds at least one additional point' is over all states; tests look at a few hand-made steps.",
  D+'DataClusters.__next__')
p("Clustering terminates and covers every point",
  "Iterating a DataClusters object (makeclusters) always stops after at most n-1 successful steps; when it is DONE every index 0..n-1 lies in exactly one cluster, and any further next() raises StopIteration without changing anything.",
  "every non-empty data set with strictly increasing x and every resolution >= 0",
  "Termination and coverage for all inputs cannot be sampled.",
  D+'DataClusters.__next__',D+'DataClusters.makeclusters')
p("A new cluster is opened exactly when the point is farther than the resolution from all clusters",
  "When next() returns, it either opened a new one-point cluster, and then the point is at distance > res from every previously existing cluster, or it extended exactly one existing cluster (the nearest) up to that point, and then its distance to that cluster is <= res; no other cluster changes.",
  "every reachable clustering state, every data set, every resolution",
  "Depends on every geometric configuration of clusters, including ties and boundaries.",
  D+'DataClusters.__next__',D+'DataClusters.find_nearest_cluster')
p("Nearest-cluster query is correct",
  "find_nearest_cluster(i) returns distance 0 exactly when i lies in a cluster (and then the index of that cluster); otherwise it returns a cluster whose near edge is at minimal distance from x[i], with positive sign if x[i] is right of it and negative if left, ties going to the right-hand cluster.",
  "every well-formed cluster list, every index, every strictly increasing x",
  "A binary search over flattened intervals: correctness is over all interval layouts and indices.",
  D+'DataClusters.find_nearest_cluster')
p("Coordinate query is correct",
  "find_nearest_cluster2(x) answers for any coordinate x (inside, between or outside data points) with the cluster nearest to the data point nearest to x.",
  "every coordinate and every clustering state",
  "Boundary coordinates (left of the first, right of the last point) form an infinite family.",
  D+'DataClusters.find_nearest_cluster2')
p("Adjacency query returns exactly the maximal runs of touching clusters",
  "find_adjacent_clusters() returns every maximal run (length >= 2) of consecutive clusters with no unclustered point between them, in increasing order, and nothing else.",
  "every well-formed cluster list",
  "A nested while-loop over arbitrary lists; tests exercise a few layouts.",
  D+'DataClusters.find_adjacent_clusters')
p("Combining clusters preserves the clustered points",
  "combine_clusters applied to runs reported by find_adjacent_clusters never raises, keeps exactly the same set of clustered points, keeps clusters well formed, removes exactly one cluster per merge, and afterwards no adjacent clusters remain; requests naming a cluster twice or non-touching clusters raise.",
  "every well-formed cluster list",
  "Quantifies over all interval layouts.",
  D+'DataClusters.combine_clusters',D+'DataClusters.find_adjacent_clusters')
p("Reset restarts the same clustering",
  "After reset_clusters() the sequence of clusters and points produced by iterating is the same as for a freshly constructed object on the same data; with no data it raises rather than fabricating a cluster.",
  "every reachable state and data set",
  "Equality of whole run histories.",
  D+'DataClusters.reset_clusters',D+'DataClusters._setdata')
p("Zero resolution makes every point its own cluster",
  "With res=0 and strictly increasing x, iteration ends with exactly n clusters, the i-th being [i,i], as the documentation promises.",
  "every data set with strictly increasing x",
  "Universally quantified over data and its ordering.",
  D+'DataClusters.__init__',D+'DataClusters.__next__')
p("Cluster slices and the full test are exact",
  "cut(k) returns the slice selecting exactly the points of cluster k; cluster_is_full(k) is true exactly when no unclustered point is adjacent to either end of cluster k.",
  "every well-formed cluster list and every valid k",
  "All layouts and end conditions (first/last cluster, neighbours touching).",
  D+'DataClusters.cut',D+'DataClusters.cluster_is_full')
# ---- parameters
M='modelparts.py:'
p("Free-parameter vector round trip",
  "Packing the values just unpacked changes nothing; packing a vector v of exactly the model's free-parameter count and unpacking returns v; a shorter or NaN vector is handled as documented (NaN raises).",
  "every model: any number of parts, any parameter counts, any pattern of fixed/free flags",
  "Sliding a single vector over variable-size parts; off-by-one errors only show for particular shapes.",
  M+'ModelParts.pack_freepars',M+'ModelParts.unpack_freepars',M+'ModelPart.getfree',M+'ModelPart.setfree',M+'ModelPart.compress')
p("Fixed parameters never change under fitting",
  "Updating a model's free parameters (the only way fit writes back) leaves every parameter flagged fixed, every free flag, owner, and removable flag untouched, and changes free parameters only; a successful fit leaves every fixed parameter at its value.",
  "every model and every vector of free values",
  "All flag patterns and sizes.",
  M+'ModelParts.pack_freepars',M+'ModelPart.update',M+'ModelParts.fit')
p("Parameter counting is consistent",
  "npars(count_fixed=True) is the sum of part lengths, npars() without fixed equals the length of the unpacked vector, and free <= total; ModelCluster.npars with and without baseline and external-fixed flags decomposes into these.",
  "every model", "All shapes of models.",
  M+'ModelParts.npars',M+'ModelPart.npars','modelcluster.py:ModelCluster.npars')
p("Copies are independent",
  "copy() of a model (parts list) compares equal to the original, and any later update of one does not affect the other, while the static owner/function objects stay shared.",
  "every model and every later sequence of in-place updates on either copy",
  "Aliasing is about all later histories of mutation.",
  M+'ModelParts.copy',M+'ModelPart.copy',M+'ModelPart.update',M+'ModelParts.__getitem__')
p("Ownership changes are checked",
  "changeowner succeeds exactly when the new owner has the same number of parameters and the part is not static (or the owner is the same object); a rejected change has no effect; evaluating a part with a function that is not its owner is rejected.",
  "every part and candidate owner", "All combinations of owners.",
  M+'ModelPart.changeowner','basefunction.py:BaseFunction.value')
p("Model value is the sum of its parts and zero outside the range",
  "The value of a model on a grid equals the pointwise sum of its parts' values; restricting the evaluation range gives the same values inside the range and exactly 0 outside; adding an empty model contributes 0.",
  "every model, grid and range", "All grids and ranges.",
  M+'ModelParts.value','basefunction.py:BaseFunction.value','modelcluster.py:ModelCluster.value')
p("Fit has a well defined outcome",
  "ModelParts.fit refuses (raises) when there are at least as many free parameters as points, does nothing when there are none, and otherwise either stores the optimiser's answer (converted to normal form) in the free parameters or raises a fit error.",
  "every model, data set and optimiser behaviour", "The optimiser's behaviour is adversarial; tests only see converging fits.",
  M+'ModelParts.fit')
# ---- formats
B='basefunction.py:'
p("Function serialization order is dependency-safe",
  "The list of functions written to a file contains every function needed, directly or through base functions, each once, and every function comes after the functions it depends on.",
  "every finite acyclic dependency graph of functions", "All dependency graphs.",
  B+'BaseFunction.safefunctionlist',B+'BaseFunction.safefunction')
p("Loading by reference index is bounds-checked",
  "factory() called with an index outside the supplied list of functions raises the documented ValueError, never another error.",
  "every index and list length", "Boundary index equal to the length.",
  B+'BaseFunction.factory','peaks/base.py:Peak.factory','baselines/base.py:Baseline.factory')
p("Function and part constructors validate their formats",
  "Constructing a function accepts exactly: matching format/default names, dictionary values that are the indices 0..n-1; constructing a part accepts exactly parameter and flag vectors of the right length.",
  "every set of constructor arguments", "All malformed inputs.",
  B+'BaseFunction.__init__',M+'ModelPart.__init__')
# ---- real functions
G='peaks/gaussianoverr.py:'
p("GaussianOverR normal form preserves the curve",
  "Converting internal parameters to their preferred (normal) form never changes the peak's value at any r, always lands in the preferred range (area>=0, width angle in [-pi/2,pi/2]), and is idempotent.",
  "all real parameters and all r", "Continuum of parameters with several branch cuts.",
  G+'GaussianOverR._transform_parametersraw',G+'GaussianOverR._valueraw','peaks/gaussian.py:Gaussian._transform_parametersraw')
p("Peak parameter formats convert back and forth without loss",
  "For widths in (0,maxwidth] (and area >= 0), converting position/FWHM/area (or position/sigma/area) to the internal format and back returns the same values; internal normal-form parameters survive the opposite trip; widths above maxwidth are rejected.",
  "all reals in the stated domain and every maxwidth>0", "Continuum, branch boundaries.",
  G+'GaussianOverR._transform_parametersraw','peaks/gaussian.py:Gaussian._transform_parametersraw')
p("GaussianOverR Jacobian is the derivative",
  "Each component of the analytic Jacobian returned for free parameters is the partial derivative of the peak's value with respect to that parameter, wherever that is differentiable; components of fixed parameters are omitted.",
  "all real parameters (away from kinks) and all r", "Analytic identity over a continuum.",
  G+'GaussianOverR._jacobianraw',G+'GaussianOverR._valueraw')
p("Gaussian Jacobian is usable",
  "The Gaussian peak function provides an analytic Jacobian for any pattern of free parameters.",
  "all parameters and free patterns", "The failing line is reached for every call.",
  'peaks/gaussian.py:Gaussian._jacobianraw')
p("Transform derivatives propagate correctly",
  "The matrices used to propagate uncertainties between formats are the Jacobian matrices of the corresponding parameter transformations.",
  "all parameters in the interior of the domain", "Analytic identity over a continuum.",
  G+'GaussianOverR._transform_derivativesraw',G+'GaussianOverR._transform_parametersraw')
p("scale_at scales the peak at the point and keeps its maximum",
  "When GaussianOverR.scale_at(peak,x,scale) succeeds the new peak's value at x is scale times the old one, its maximum position and height are unchanged; otherwise the peak is unchanged.",
  "all parameters, x and scale in the admissible domain", "Continuum of inputs.",
  G+'GaussianOverR.scale_at','peaks/base.py:Peak.scale_at')
p("max() locates the maximum",
  "The (r, value) pair returned by max() is the local maximum of the curve: the value there is the returned height, the curve rises up to it (from its other stationary point) and falls for ever after it; GaussianOverR.max raises ValueError exactly when the curve has no local maximum at positive r.",
  "all peak parameters", "Continuum.",
  G+'GaussianOverR.max','peaks/gaussian.py:Gaussian.max')
p("Width and area parameters mean what they say",
  "A Gaussian with position p, FWHM w and area a takes half its maximum exactly at p±w/2, has height a/(sigma sqrt(2 pi)) and encloses the area a (its integral over the real line is a; so does GaussianOverR times |r|), and every internal width angle gives a FWHM in [0,maxwidth].",
  "all parameters", "Continuum.",
  'peaks/gaussian.py:Gaussian._valueraw',G+'GaussianOverR._valueraw')
p("Polynomial baseline evaluates the stated polynomial",
  "Polynomial of degree d with parameters [a_d..a_0] evaluates to the sum of a_k r^k, and its Jacobian gives the derivative with respect to each free coefficient.",
  "every degree, coefficients and r", "All degrees.",
  'baselines/polynomial.py:Polynomial._valueraw','baselines/polynomial.py:Polynomial._jacobianraw','baselines/polynomial.py:Polynomial.__init__')
p("Nanospherical baseline is consistent",
  "The spherical-nanoparticle baseline is continuous, zero outside (0,2R), negative multiples of r inside scaled by s, its Jacobian gives the derivatives in scale and radius, its normal form does not change the curve, and scalar and array evaluation agree.",
  "all parameters and r", "Continuum plus domain boundary.",
  'baselines/nanospherical.py:NanoSpherical')
p("Arbitrary baselines have the number of parameters asked for",
  "Arbitrary(npars=n) creates a function with n parameters.",
  "every n", "Off by one for every n.", 'baselines/arbitrary.py:Arbitrary.__init__')
# ---- evaluators
E='modelevaluators/'
p("Model comparison is a consistent order",
  "For evaluators of one method, the comparison operators on computed models form a total preorder in which lower AIC/AICc is 'greater' (better): exactly one of <, ==, > holds, <= is < or ==, != is the negation of ==, and comparison of different methods or unevaluated models is refused.",
  "all pairs/triples of evaluated models", "Order laws quantify over all triples.",
  E+'base.py:ModelEvaluator')
p("Information criteria have the documented form",
  "AIC = chi2 + 2k; AICc = chi2 + 2k + 2k(k+1)/(n-k-1) with n raised to the minimum k+2; the penalty is positive and strictly increasing in k, AICc exceeds AIC and decreases towards it with n; the denominator never vanishes.",
  "all k, kshift, n and chi2", "All sizes.",
  E+'aic.py:AIC.evaluate',E+'aic.py:AIC.parpenalty',E+'aicc.py:AICc.parpenalty',E+'aicc.py:AICc.minpoints')
p("growth_justified agrees with the criterion",
  "growth_justified(fit,k) is true exactly when adding k parameters could still lower the criterion below its present value even for an otherwise perfect improvement per the documented threshold, and is false whenever too few points support the extra parameters.",
  "all fits, k", "All sizes.",
  E+'aic.py:AIC.growth_justified',E+'aicc.py:AICc.growth_justified')
p("Akaike weights and probabilities are a distribution",
  "Weights lie in (0,1] with the best model having weight 1; probabilities are positive, sum to 1 and are ordered opposite to the criterion; equal criteria give equal probabilities.",
  "every non-empty list of criteria", "All lists and sizes.",
  E+'aic.py:AIC.akaikeweights',E+'aic.py:AIC.akaikeprobs')
# ---- ModelCluster
C='modelcluster.py:'
p("A fit never makes a cluster's model worse",
  "ModelCluster.fit either returns the quality of the new model, which is not worse than the one before, and keeps the new model (in position order, cleaned), or returns nothing and leaves peaks and baseline exactly as they were (except that a cluster without peaks may keep the one estimated peak); objects shared with other clusters are not left changed by a failed fit.",
  "every cluster, evaluator and optimiser behaviour, including failures at any stage", "Adversarial optimiser and failure points.",
  C+'ModelCluster.fit')
p("Replacing peaks is all-or-nothing and keeps order",
  "replacepeaks removes exactly the selected peaks and inserts the new ones, the result is sorted by position with nothing else lost; if a selected peak is not removable it raises and the model is unchanged.",
  "every model, new peaks and selection", "All lists and slices.",
  C+'ModelCluster.replacepeaks',C+'ModelCluster.deletepeak','peaks/base.py:Peaks.sort')
p("A cluster is marked for fitting exactly when documented",
  "Through any history of change_slice calls the slice equals the last one requested and a cluster marked never-fit contains no point whose value above the baseline reaches its uncertainty (no cluster is wrongly skipped); if each slice contains the previous one the mark is set exactly when there is no such point.",
  "every pair of slices and data", "All slices.",
  C+'ModelCluster.change_slice')
p("cleanfit removes only bad peaks",
  "On a model in position order cleanfit removes exactly the peaks with a NaN parameter and the removable peaks that lie before the first or not before the last point of the cluster and stay below the uncertainty at every point of it; all other peaks keep order and parameters and the number removed is reported.",
  "every model", "All positions, including boundary.",
  C+'ModelCluster.cleanfit')
p("Joining adjacent clusters loses no data and is symmetric",
  "join_adjacent(a,b) covers exactly the union of the two slices, contains all peaks of both except duplicates at the border, removes peaks that are out of order and on the wrong side of the border, is independent of argument order, and rejects clusters that do not touch or do not share data, method and baseline.",
  "every pair of adjacent clusters", "All models.",
  C+'ModelCluster.join_adjacent')
p("Pruning respects constraints",
  "prune never removes a non-removable peak, never increases the number of peaks, never ends with a worse quality than it started with, and terminates normally for every model.",
  "every model, optimiser and evaluator", "All execution paths.",
  C+'ModelCluster.prune')
p("Scaling a group of peaks is atomic",
  "Peaks.match_at(x,y) either rescales every peak so that the sum matches y at x and returns True, or leaves all peaks unchanged and returns False.",
  "every peak list, x and y", "Failure in the middle of the list.",
  'peaks/base.py:Peaks.match_at',C+'ModelCluster.reduce_to')
p("The covariance attached to a model is faithful",
  "Setting the covariance of the free parameters on a new or cleared object produces a full matrix with zero rows and columns for the fixed ones, keeps every entry, symmetry and positive semidefiniteness; a matrix of the wrong shape is rejected with nothing changed; getvalue, getuncertainty, getcovariance and get answer for the parameter named, whether by number or by (part, parameter), and refuse other names; correlations lie in [-1,1], are symmetric, 1 on the diagonal and 0 for fixed parameters; correlationwarning lists exactly the pairs above the threshold, each once.",
  "every model shape, matrix and pattern of fixed parameters", "All shapes.",
  C+'ModelCovariance.setcovariance',C+'ModelCovariance.getcovariance',C+'ModelCovariance.getcorrelation',C+'ModelCovariance.correlationwarning')
p("Contingent fits happen only on sufficient growth",
  "contingent_fit fits exactly when the cluster is unfit-able flag permits and its size grew by the stated factor since the last fit.",
  "all cluster histories", "All histories of growth.",
  C+'ModelCluster.contingent_fit')
# ---- Extraction
X='peakextraction.py:'
p("Range selection picks exactly the points in range",
  "getrangeslice() selects exactly the data points with rng[0] <= x <= rng[1].",
  "every sorted x and range", "All boundary alignments.", X+'PeakExtraction.getrangeslice')
p("Setting extraction variables is validated",
  "setvars with an unknown variable name raises ValueError; known ones are stored and others untouched; clearing resets to the initial state.",
  "every history of settings", "All histories.", X+'PeakExtraction.setvars',X+'PeakExtraction.clear','pdfpeakextraction.py:PDFPeakExtraction.setvars')
p("Default values never override explicit settings",
  "defaultvars assigns documented defaults to unset variables only, makes range end points concrete, and after it every required variable is set; repeating it changes nothing.",
  "every subset of settings", "All subsets.", X+'PeakExtraction.defaultvars','pdfpeakextraction.py:PDFPeakExtraction.defaultvars')
p("Extraction keeps models and clusters in step and finishes",
  "During extraction the list of cluster models always matches the list of data clusters one to one with equal ranges; at most three clusters ever become mutually adjacent in a step; when clustering is exhausted exactly one model remains that covers the whole range.",
  "every data set, every resolution and every fitting outcome", "Loop invariant over all executions.",
  X+'PeakExtraction.extract_single')
p("Recursive extraction terminates",
  "The recursive re-extraction never nests deeper than three levels, and every loop of it ends.",
  "every execution", "All executions.", X+'PeakExtraction.extract_single')
Q='pdfpeakextraction.py:'
p("Resampling keeps the sampled data",
  "resample(orig_r,orig_y,new_r) on a uniform grid reproduces the original values at original grid points and has the length of new_r; resampledata returns arrays of one length on a grid of spacing dr inside the data and the range, with uncertainties never below the smallest given one.",
  "every uniform grid, sequence, new grid, range and spacing", "All grids.", Q+'resample')
p("Error scale never shrinks uncertainties",
  "errorscale() >= 1 for all settings, and equals 1 unless the grid is oversampled.",
  "all settings", "Continuum.", Q+'PDFPeakExtraction.errorscale')
p("Running-variance statistic is exact",
  "stdratio computes, for each prefix, the ratio of the standard deviations of the two adjacent windows as documented.",
  "every sequence of length >= 4", "All lengths; online updates.", Q+'stdratio')
p("Nyquist refinement loop terminates",
  "extract() with nyquist resampling always terminates: each iteration either stops or moves to a strictly coarser admissible grid bounded by the Nyquist limit.",
  "all free-parameter outcomes", "Termination for adversarial fits.", Q+'PDFPeakExtraction.extract')
# ---- dataset
p("Uncertainties are accepted all or nothing",
  "Reading a PDF data set either raises the documented format error and leaves the data set as it was, or stores r and G of equal length (one value per data line); uncertainties are used only if every value is positive and finite, otherwise they are all zero of the same length.",
  "every data file", "All data.", 'pdfdataset.py:PDFDataSet.readStr')
p("Data set copies are complete",
  "copy() of a data set has the same observed data, parameters and metadata, leaves the source unchanged, and neither object is affected by later changes of the other.",
  "every data set and later mutation", "All histories.", 'pdfdataset.py:PDFDataSet.copy')
# ---- multimodel
MM='multimodelselection.py:'
p("Model classes partition the models",
  "classify puts every model in exactly one class, represented by its exemplar, and two models in different classes' exemplars differ by more than the tolerance.",
  "every set of models and tolerance", "All sets.", MM+'MultimodelSelection.classify')
p("Best-model queries return true maxima",
  "get_model/get_class/bestmodels/bestclasses/maxprob queries return the documented n-th best by probability for the given uncertainty.",
  "every table of probabilities", "All tables.", MM+'MultimodelSelection.bestmodels',MM+'MultimodelSelection.get_model',MM+'MultimodelSelection.maxprobdG_bymodel')
p("Uncertainty lookup returns the nearest key",
  "dg_key(dg) returns the stored uncertainty nearest to dg.",
  "every key list and value", "All lists.", MM+'MultimodelSelection.dg_key')
p("Rescaling the criterion equals recomputation",
  "The AIC computed by rescaling chi2 by (dg0/dg)^2 equals the AIC computed from residuals scaled with dg directly.",
  "every residual, dg0, dg", "All data.", MM+'MultimodelSelection.makeaics')
p("Per-class best uncertainties honour the argument",
  "classbestdgs and modelbestdgs consider exactly the uncertainties passed in.",
  "every argument", "All arguments.", MM+'MultimodelSelection.classbestdgs',MM+'MultimodelSelection.modelbestdgs')
p("Generic accessor serves every documented key",
  "get(dg, *keys) accepts each documented key and returns the corresponding accessor's result.",
  "every documented key", "Dispatch table.", MM+'MultimodelSelection.get')
# ---- tracing
L='srmiselog.py:'
p("Trace counters nest correctly",
  "Balanced push/pop restores the tracer's levels, successive traces have consecutive counters starting at 0 for each outermost operation (also after a failed one), which starts with an empty memory.",
  "every balanced sequence of operations", "All histories.", L+'TracePeaks.pushr',L+'TracePeaks.popr',L+'TracePeaks.pushc',L+'TracePeaks.popc',L+'TracePeaks.maketrace')
p("Traces read back as written",
  "readstr(writestr(trace)) gives the cluster, the ranges, the recursion level and the counter of the written trace, and read() does so from a written file.",
  "every trace", "All values.", L+'TracePeaks.readstr',L+'TracePeaks.writestr')
p("Stability results follow the selected uncertainty",
  "run(errors) stores one result per uncertainty, what extraction with it gave; setcurrent(i) installs the i-th result's model, baseline and uncertainty on the resampled data or raises and changes nothing; the stored results stay unchanged by setcurrent and by later use of the extracted model.",
  "every run and index", "All histories.", 'peakstability.py:PeakStability.setcurrent','peakstability.py:PeakStability.run')
p("Augmenting adds only improving source peaks",
  "augment(source) always terminates, leaves the source unchanged, and on normal return the model consists (up to fitted parameters) of own and source peaks, is never worse than before, and clusters with protected (non-removable) peaks can be augmented like any other.",
  "every model, source model, optimiser and statistic", "All optimiser behaviours.", 'modelcluster.py:ModelCluster.augment','modelcluster.py:ModelCluster.replacepeaks')
p("PdfFit variables are stored and returned exactly",
  "setvar accepts exactly qdamp, qbroad and dscale, changes only that variable of that data set, and getvar returns what was set; any other name or a non-number is rejected with nothing changed.",
  "every data set, variable name and value", "All names and values.", 'pdfdataset.py:PDFDataSet.setvar','pdfdataset.py:PDFDataSet.getvar')
p("A trace is a snapshot of the whole model",
  "Every emitted trace covers the whole data range and holds exactly the peaks of all clusters in position order with the first cluster's baseline and data; emitting changes none of them, and later changes of the clusters do not change the trace.",
  "every list of clusters and later in-place change", "All models and histories; aliasing.", L+'TracePeaks.emit',L+'TracePeaks.maketrace')
p("Protected initial peaks survive extraction",
  "Initial peaks marked as not removable are in the extracted model (possibly refined), provided the fit never produces NaN parameters.",
  "every data set, every list of initial peaks, every fitting outcome without NaN", "All executions of the extraction loop, pruning and final fit.", 'peakextraction.py:PeakExtraction.extract_single','modelcluster.py:ModelCluster.prune','modelcluster.py:ModelCluster.addexternalpeaks')
p("Format changes propagate the covariance",
  "ModelCovariance.transform converts the parameters of the selected parts and turns the covariance into J C J^T, J being the derivatives of the converted parameters; parts that cannot be converted are left alone together with their covariances.",
  "every model, covariance matrix, pair of formats and selection of parts", "All shapes and parameter values; the derivatives must be the true ones.",
  C+'ModelCovariance.transform','peaks/gaussianoverr.py:GaussianOverR._transform_derivativesraw')

# ---- restatements: the part of the property that holds; the expectation that the code
# ---- violates is a property of its own (C71-C95)
def restate(i, st):
    q=[q for q in P if q['id']==i][0]; q['statement']=st
restate('C07',"When the maximal runs (length >= 2) of touching clusters all have the same length, find_adjacent_clusters() returns exactly those runs, in increasing order; it never returns anything else (it can only raise ValueError, and only when two runs differ in length).")
restate('C08',"combine_clusters applied to runs reported by find_adjacent_clusters never raises, keeps exactly the same set of clustered points, keeps clusters well formed, removes exactly one cluster per merge, and afterwards no touching clusters remain; any accepted increasing request names runs of touching clusters, each once, and changes nothing but the cluster list; requests naming a cluster twice are rejected with nothing changed.")
restate('C12',"Packing the values just unpacked changes nothing; packing a vector of at least the model's free-parameter count and unpacking returns its first values; a NaN anywhere is rejected with nothing changed; a shorter vector is rejected unless exactly one value is left for the last part that has free parameters.")
restate('C13',"Updating a model's free parameters (the only way fit writes back) leaves every parameter flagged fixed, every free flag, owner and removable flag untouched; after a fit parts outside the model are unchanged, and each part of the model is the normal form of its parameters with only free ones changed.")
restate('C18',"ModelParts.fit refuses with a fit error, changing nothing, when there are at least as many free parameters as points, does nothing when there are none, and otherwise either stores the optimiser's answer (converted to normal form) in the free parameters, after a status of 1 to 4 and without NaN, or raises; the cases in which it raises something else than a fit error are exactly listed.")
restate('C23',"For widths in (0,maxwidth] and area >= 0, converting between position/FWHM/area, position/sigma/area and the internal format and back returns the same values; FWHM = 2 sqrt(2 ln 2) sigma; widths above maxwidth are rejected.")
restate('C26',"At every interior point of the domain (positive area, width strictly inside its range) the matrices used to propagate uncertainties between formats are the Jacobian matrices of the corresponding parameter transformations.")
restate('C27',"When GaussianOverR.scale_at or Gaussian.scale_at returns finite parameters, the new peak's value at x is scale times the old one and its height at the old maximum is unchanged, which is still its maximum exactly as long as the new sigma is below it; which outcome (finite, NaN, refusal) occurs is determined for every peak, x and scale; Peak.scale_at leaves the peak unchanged when it reports failure and changes free parameters only.")
restate('C28',"For positive positions the (r, value) pair returned by max() is the local maximum of the curve: the value there is the returned height, the curve rises up to it (from its other stationary point) and falls for ever after it; GaussianOverR.max raises exactly when the curve decreases everywhere. Gaussian.max returns the global maximum.")
restate('C30',"Polynomial of degree d with parameters [a_d..a_0] evaluates to the sum of a_k r^k.")
restate('C31',"For a positive radius the spherical-nanoparticle baseline is continuous, zero outside (0,2R), a negative multiple of r inside scaled by |s|, its Jacobian gives the derivative in the radius, and scalar and array evaluation agree.")
restate('C34',"For a fresh evaluator AIC = chi2 + 2k and AICc = chi2 + 2k + 2k(k+1)/(n-k-1) with n raised to the minimum k+2; negative k is rejected; the penalty is nonnegative and strictly increasing in k, AICc exceeds AIC for k > 0 and decreases towards it with n; the denominator is at least 1.")
restate('C37',"ModelCluster.fit either returns the quality of the new model, which is not worse than the one before, and keeps the new model (in position order, cleaned), or returns nothing and leaves peaks and baseline as they were (except that a cluster without peaks may keep the one estimated peak); the data and range of the cluster never change.")
restate('C38',"replacepeaks removes exactly the selected peaks and inserts the new ones, the result is sorted by position with nothing else lost; if a selected peak is not removable it raises and the model is unchanged; deletepeak with an index in range other than -1 removes exactly that peak.")
restate('C41',"join_adjacent(a,b) covers exactly the union of the two slices, contains all peaks of both except duplicates at the border, in position order, is independent of argument order, and rejects clusters that do not touch or do not share data, method and baseline.")
restate('C42',"prune always terminates, removes only removable peaks as long as fits produce no NaN, never adds a peak, and returns normally when all peaks are removable.")
restate('C43',"Peaks.match_at(x,y) leaves all peaks unchanged when it returns False; when every peak accepts the common factor all are rescaled so that the sum is y at x and it returns True; when it returns True some peak was rescaled by one common factor and the sum is y or falls short in the stated way; reduce_to leaves the cluster unchanged unless it reports a quality.")
restate('C46',"For a nonempty sorted grid and a range that meets its span, getrangeslice() selects exactly the data points with rng[0] <= x <= rng[1].")
restate('C55',"Reading a PDF data set either raises the documented format error or stores r and G of equal length (one value per data line); uncertainties are used only if every value is positive and not recognised as NaN or infinite, otherwise they are all zero of the same length; well-formed files are accepted and files with a missing or unreadable r or G are rejected.")
restate('C56',"copy() of a data set into a new or a different data set has the same observed data, variables and metadata, leaves the source unchanged, and neither object is affected by later clear, setvar, readStr, copy or metadata operations on the other.")
restate('C63',"Balanced push/pop restores the tracer's levels; successive traces of an outermost operation have consecutive counters starting at 0, and each carries the recursion level of the moment it was emitted.")
restate('C65',"run(errors) stores one result per uncertainty, in order: the uncertainty, the model and the grid spacing its extraction gave, different results in separate model objects, and as baseline either one of its own or the extracter's baseline object as the last extraction has left it. When extraction leaves the extracter's baseline alone and gives models with a baseline of their own (C215), every result is exactly what extraction with its uncertainty gives at any time. setcurrent(i) with an index in range installs the i-th result's model, baseline and uncertainty on the resampled data and leaves the stored results unchanged; setcurrent(None) clears the current model.")
restate('C66',"augment(source) always terminates; on normal return the model consists (up to fitted parameters) of own and source peaks on the same data; it returns normally when no peak is protected.")
restate('C68',"Every emitted trace covers the whole data range and holds exactly the peaks of all clusters, in position order, with the first cluster's baseline and data; emitting changes none of them; a trace of one cluster is not affected by later changes of the cluster.")
restate('C70',"For parts whose function provides a symmetric gradient matrix, in particular GaussianOverR peaks, and for parts that cannot be converted at all (baselines), ModelCovariance.transform converts the parameters of the selected parts and turns the covariance into J C J^T, J being the true derivatives of the converted parameters (identity for parts left alone).")
p("Adjacency query works for every layout","find_adjacent_clusters() returns normally for every cluster list.","every well-formed cluster list","Only layouts with runs of different lengths fail.",D+'DataClusters.find_adjacent_clusters')
p("Rejected combine requests have no effect","A combine request that is rejected leaves the clusters unchanged, and requests that do not list neighbouring clusters in increasing order are rejected.","every cluster list and request","All requests.",D+'DataClusters.combine_clusters')
p("Too short parameter vectors are rejected","Packing a vector shorter than the number of free parameters raises.","every model and vector","Fails for particular shapes only.",M+'ModelParts.pack_freepars')
p("Fixed parameters keep their exact value in a fit","A successful fit leaves every fixed parameter at exactly its value.","every model and optimiser behaviour","All parameter values, including those not in normal form.",M+'ModelParts.fit')
p("A fit fails only with the documented error","ModelParts.fit raises nothing but the fit error.","every model and optimiser behaviour","Adversarial optimiser.",M+'ModelParts.fit')
p("Negative widths are rejected","Converting a peak with a negative width to the internal format raises.","all parameters","Continuum.",G+'GaussianOverR._transform_parametersraw')
p("Transform derivatives hold for any sign of the area","The transformation matrices are the Jacobians also for internal parameters with negative area.","all parameters","Continuum.",G+'GaussianOverR._transform_derivativesraw')
p("Successful scaling gives a usable peak","Whenever scale_at reports success the parameters are finite and the maximum has not moved.","all parameters, x and scale","Continuum of inputs.",G+'GaussianOverR.scale_at','peaks/gaussian.py:Gaussian.scale_at')
p("max() for peaks at negative positions","GaussianOverR.max returns a local maximum also for a peak at a negative position.","all parameters","Continuum.",G+'GaussianOverR.max')
p("Polynomial Jacobian","The Jacobian of a polynomial baseline gives the derivative with respect to each free coefficient.","every degree, coefficients, r and free pattern","All degrees.",'baselines/polynomial.py:Polynomial._jacobianraw')
p("Nanospherical scale derivative and normal form","The Jacobian of the nanospherical baseline gives the derivative in the scale, and the normal form of its parameters describes the same curve.","all parameters and r","Continuum.",'baselines/nanospherical.py:NanoSpherical._jacobianraw','baselines/nanospherical.py:NanoSpherical._transform_parametersraw')
p("Evaluators can be reused","An evaluator that has evaluated one fit gives the right criterion for the next.","all sequences of fits","All histories.",E+'aic.py:AIC.evaluate')
p("Failed fits leave shared objects alone","A fit that is undone leaves the peak and baseline objects held by other clusters unchanged.","every cluster, optimiser and sharing","Aliasing.",C+'ModelCluster.fit',C+'ModelCluster.join_adjacent')
p("deletepeak accepts every Python index","deletepeak(i) deletes peak i for every valid index, including -1, and raises for others.","every model and index","Boundary index.",C+'ModelCluster.deletepeak')
p("Joining removes misplaced peaks","join_adjacent removes peaks that are out of order and on the wrong side of the border.","every pair of clusters","All models.",C+'ModelCluster.join_adjacent')
p("Pruning never ends worse and always returns","prune never ends with a worse quality than it started with, returns normally for every model and keeps protected peaks whatever the fit produces.","every model, optimiser and evaluator","All execution paths.",C+'ModelCluster.prune')
p("match_at's True means matched","When Peaks.match_at returns True the sum of the peaks at x is y, using a second attempt for any number of peaks.","every peak list, x and y","All lists.",'peaks/base.py:Peaks.match_at')
p("Range selection outside the data","A range that contains no data point selects nothing, without raising.","every sorted x and range","Boundary cases.",X+'PeakExtraction.getrangeslice')
p("Reading a data set is safe","Accepted uncertainties are finite, and a failed read leaves the data set as it was.","every data file","All inputs.",'pdfdataset.py:PDFDataSet.readStr')
p("Every attribute of a data set is copied","copy() also copies spdiameter, copying to itself is harmless, and in-place edits of one copy do not reach the other.","every data set","Aliasing and rarely used attributes.",'pdfdataset.py:PDFDataSet.copy')
p("Each traced operation starts afresh","An outermost operation starts with an empty memory and counter 0, also after one that ended by an exception.","every history","All histories.",L+'TracePeaks.pushc',L+'TracePeaks.popc')
p("Stored stability results are immutable","setcurrent with an index out of range changes nothing, and using the installed model does not change the stored results.","every run, index and later use","Aliasing.",'peakstability.py:PeakStability.setcurrent')
p("Augmenting works with protected peaks and never worsens","augment never ends with a worse quality than it started with, and clusters with protected peaks can be augmented like any other.","every model, source, optimiser and statistic","All execution paths.",C+'ModelCluster.augment')
p("Traces of several clusters are snapshots","Later changes of the clusters do not change a trace made from them.","every list of clusters","Aliasing.",L+'TracePeaks.maketrace')
p("Covariance conversion for every function and selection","transform propagates the covariance for Gaussian peaks too, accepts parts=\"baseline\", handles parts without parameters, non-symmetric gradients, and changes nothing when it raises.","every model and selection","All shapes.",C+'ModelCovariance.transform')
p("Combining clusters reconsiders only the peaks at the border","When the extraction combines two clusters, or recurses at an end of the data, at most two peaks (the last left of the border and the first at or right of it) are reconsidered; all other peaks of the cluster enter the final fit unchanged, none lost and none counted twice, and no other cluster is touched.","every pair of clusters, model, border and outcome of the nested extraction","All models and execution paths.",X+'PeakExtraction.extract_single')
p("The refitted range is the interpeak range","The data passed to the nested extraction are exactly those between the next-nearest peaks on either side (or the end of the cluster), up to one extra point on the left and two on the right.","every increasing x, model and border","All data and boundary cases.",X+'PeakExtraction.extract_single')
TR='peaks/terminationripples.py:TerminationRipples.'
p("The extended grid contains the requested grid","Extending a uniform grid for the evaluation of termination ripples gives a uniform grid of the same step which contains the requested points exactly at the returned slice, reaches the extension length beyond the last point and before the first (stopping before r=0), and no further than one more step.","every uniform grid with positive step, every qmax and extension","A statement about all real grids; floor/ceil boundary cases.",TR+'extend_grid')
p("The frequency cut is an exact low-pass projection","Cutting frequencies keeps the length of the signal, is linear, gives a real result, and on signals of power-of-two length keeps exactly the Fourier components below qmax(N-1)/N unchanged and removes all others; band-limited signals are unchanged and cutting twice is cutting once.","every signal, step and qmax","All signals of all lengths over the reals.",TR+'cut_freq')
p("Rippled values are the cut of the peak on a fine enough grid","On a uniform grid the rippled value at every requested point is the band-limited version of the base function sampled on a grid that contains the requested points, with the coarsest subdivision at least as fine as 2 pi/(supersample qmax); points outside the range are zero, and the base function is never sampled at r<=0 except at the first requested point.","every uniform grid, range, base function, qmax, extension and supersample","All grids and functions.",TR+'value',TR+'extend_grid',TR+'cut_freq')
p("The rippled Jacobian is the derivative of the rippled value","On grids at least as fine as 2 pi/(supersample qmax), if the base function's Jacobian is the derivative of the base function's value, the rippled Jacobian is the derivative of the rippled value at every point; in particular for Gaussian over r.","every fine uniform grid, range, parameters and free flags","Derivatives over all real parameters.",TR+'jacobian',TR+'value')
p("The rippled Jacobian belongs to the rippled value on every grid","Value and Jacobian of a peak with termination ripples are computed from the same sampling on every grid, and both accept single numbers and length-one arrays.","every grid with two or more points, single points","Needs a statement about all coarse grids.",TR+'jacobian',TR+'value')
p("Coordinate queries inside the data","For a coordinate after data point i-1 and up to data point i, find_nearest_cluster2 answers exactly as find_nearest_cluster does for data point i.","every clustering state and every coordinate inside the data","All coordinates and states.",D+'DataClusters.find_nearest_cluster2')
p("What a reference index selects","Loading a function by reference gives entry idx for 0<=idx<n, counts from the end for -n<=idx<0, and otherwise raises (ValueError above n, IndexError at n and below -n).","every index and list","All indices.",B+'BaseFunction.factory')
p("Arbitrary baselines delegate their Jacobian","With a Jacobian function of the user, the Jacobian of an Arbitrary baseline is that function's result whenever the numbers of parameters and flags are right, and ValueError otherwise; a negative number of parameters is rejected.","every function, parameters and flags","All inputs.",'baselines/arbitrary.py:Arbitrary._jacobianraw','baselines/arbitrary.py:Arbitrary.__init__')
p("The Nyquist refinement terminates for small baselines","When the baseline has fewer free parameters than there are Nyquist intervals in the range, the refinement ends after at most as many rounds as there were free parameters; the grids used get strictly coarser, none is coarser than the Nyquist limit, and the last is the Nyquist grid or just resolves the remaining free parameters; peaks are only removed.","every initial model, fit outcome and statistic","Termination for adversarial fits.",Q+'PDFPeakExtraction.extract')
p("Per-class best uncertainties by default","Without an argument classbestdgs and modelbestdgs return exactly the uncertainties for which that class or model is the best one.","every prepared analysis, class and model","All tables.",MM+'MultimodelSelection.classbestdgs',MM+'MultimodelSelection.modelbestdgs')
p("Generic accessor agrees with the specific ones","get() with the keys aic, class, model, nfree and prob returns what the accessor of that name returns for the same uncertainty and keywords, raises when that raises, and serves several keys left to right.","every analysis, uncertainty, keyword set and key list","All key lists.",MM+'MultimodelSelection.get')
p("Traces keep their model and ranges through text","Reading a written trace gives its model and its clusters; the counters are those of the reading tracer. Violated for every trace with the evaluators supplied, because the text of its model cannot be read (C126); it holds once that text can be read.","every trace whose model text and cluster text read back","All traces.",L+'TracePeaks.readstr',L+'TracePeaks.writestr')
p("Pruning never ends worse unless a fit is undone","If no fit on the way is undone, prune ends with a quality that is not worse than the quality it started with.","every model, optimiser and statistic that prefers fewer parameters at equal residuals","All execution paths.",C+'ModelCluster.prune')
p("Augmenting never ends worse unless a fit is undone","If no fit on the way is undone or loses all peaks, augment ends with a quality that is not worse than the quality it started with.","every model, source, optimiser and statistic","All execution paths.",C+'ModelCluster.augment')
p("Uncertainties read are usable","If every spelling of infinity is caught by the inf/nan pattern, the uncertainties after reading are all finite and positive, or all zero when a column is missing or unusable.","every data file","All inputs.",'pdfdataset.py:PDFDataSet.readStr')
p("Nanospherical baseline for positive parameters","For positive scale and radius the Jacobian gives the derivative in the scale; for radius >= 0 the normal form has non-negative parameters, describes the same curve and is stable.","all such parameters and r","Continuum.",'baselines/nanospherical.py:NanoSpherical._jacobianraw','baselines/nanospherical.py:NanoSpherical._transform_parametersraw')
p("Results appear only on success","extract() and fit() leave `extracted` and `extraction_type` unset whenever they raise; when they return, `extraction_type` is \"extract\" or \"fit\" and `extracted` is a model. A previous result never survives a failed run, and the settings other than peaks and baseline are not changed.","every object, data, setting, fit and estimation outcome","Every failure point.",Q+'PDFPeakExtraction.extract',Q+'PDFPeakExtraction.fit','peakextraction.py:PeakExtraction.clearcalc')
p("Working grids","For increasing data with two points in the range and qmax >= 0, the grids extract() and fit() work on are non-empty, strictly increasing, inside the range and have as many values and uncertainties as points; without qmax they are exactly the data points in the range with their own values and uncertainties; with qmax the extraction grid of evenly spaced data has at least `supersample` points per Nyquist interval and that of fit() with nyquist=True is spaced by exactly the Nyquist interval.","all such data, ranges, qmax, supersample and nyquist","All real data.",Q+'PDFPeakExtraction.extract',Q+'PDFPeakExtraction.fit')
p("The extracted model covers the chosen grid","When extract() returns, the model spans all of one grid with its uncertainties (and values): the extraction grid without qmax or without nyquist, otherwise a grid resampled at the Nyquist interval or finer, exactly Nyquist if the initial model has few enough free parameters; its peaks come from the initially extracted ones by fits and removal of removable peaks, unless all of them were removed on the way.","every data set, setting, optimiser, estimate and statistic","Unbounded pipelines of fits.",Q+'PDFPeakExtraction.extract')
p("Termination ripples for every peak that allows them","With qmax > 0, unless all peaks found were removed, every peak of the result carries termination ripples, except peaks with a static function, which keep theirs; peaks which already had ripples are not wrapped again.","every data set, setting, optimiser, estimate and statistic","Unbounded pipelines of fits.",Q+'PDFPeakExtraction.extract','modelparts.py:ModelPart.changeowner')
p("Protected initial peaks survive the whole extraction","Every initial peak that may not be removed is in the final result (possibly refined, with its function wrapped in termination ripples if qmax > 0) as long as fits produce no NaN.","every data set, setting, set of initial peaks, optimiser, estimate and statistic","Unbounded pipelines of fits.",Q+'PDFPeakExtraction.extract','peakextraction.py:PeakExtraction.extract_single')
p("fit() only refines the initial peaks","When fit() returns, the result spans the whole fit grid with its values and uncertainties, its peaks are initial peaks (refined), none is added, and it is the initial model itself or not worse than it.","every data set, initial peaks, baseline and optimiser","All optimiser behaviours.",Q+'PDFPeakExtraction.fit','peakextraction.py:PeakExtraction.fit_single')
p("fit() leaves the user's initial peaks and baseline alone","initial_peaks and baseline are inputs: fit() does not change them, in particular not when the fit fails. Violated: the nested object and the cluster share them, and a fit that is undone leaves its values in them.","every data set and optimiser","Aliasing.",Q+'PDFPeakExtraction.fit','peakextraction.py:PeakExtraction.fit_single','modelcluster.py:ModelCluster.fit')
p("Every non-static peak of a result with qmax has ripples","With qmax > 0 all peaks of the result that allow it carry termination ripples. Violated: when every peak is pruned the final fit estimates a new peak from the plain peak function.","every data set and optimiser","Rare paths.",Q+'PDFPeakExtraction.extract')
p("A function survives its text","Reading a function's writestr text calls the class of the same name from the same module with the same keyword values, and with the base at the same index of the list it is read with.","every function whose values are written on one line that evaluates back, without an equals sign in the first word","All names, values and positions.",'basefunction.py:BaseFunction.writestr','basefunction.py:BaseFunction.factory')
p("A list of functions survives its text","For a list in which every base stands before its users, writing the functions one after the other and reading them in order gives as many functions, each rebuilt from its own class and values, with the rebuilt base in place of the base.","every such list, of any length and depth of nesting","All nestings.",'basefunction.py:BaseFunction.writestr','basefunction.py:BaseFunction.factory','modelcluster.py:ModelCluster.writestr','modelcluster.py:ModelCluster.factory')
p("A peak or baseline survives its text","Reading the text of a peak or baseline gives the same values, free flags, removable and static_owner, with the function at the same index.","every part whose values evaluate back","All values and positions.",'modelparts.py:ModelPart.writestr','peaks/base.py:Peak.factory','baselines/base.py:Baseline.factory')
p("Any text value of a function can be read","A function whose keyword values evaluate back can be read from its text. Violated: the pattern for keys is greedy, a value like 'a=b' moves part of the value into the key.","every function","All texts.",'basefunction.py:BaseFunction.factory')
p("A cluster can be written and read","ModelCluster.factory(m.writestr()) gives back the cluster. Violated: the evaluator is looked up in a package that does not contain AIC and AICc, so reading always raises; without lists of functions a cluster without baseline or peak functions cannot be written.","every cluster with the evaluators supplied (or none)","All clusters.",'modelcluster.py:ModelCluster.writestr','modelcluster.py:ModelCluster.factory')
p("A saved extraction can be read","read() and readstr() restore a saved extraction, PeakStability.load a saved set of results, and a failed read leaves the object as it was. Violated: they raise for every text, after clearing the object or replacing the results.","every text and object state","All texts.",'peakextraction.py:PeakExtraction.readstr','peakextraction.py:PeakExtraction.read','peakstability.py:PeakStability.load')
p("Baselines from files: the data are what the file says","FromSequence(file) uses the numbers in the file. Violated: the first character of the first data line is dropped, 10 becomes 0.","every file","All files.",'baselines/fromsequence.py:FromSequence.readxy')
p("Baselines from files: rows after comments","After comment lines, and one character in front of the first number, every row of two numbers is read exactly and in order.","every number of comment lines and rows","All files.",'baselines/fromsequence.py:FromSequence.readxy')
p("Setting data","setdata accepts data exactly if x, y and the uncertainties given have the same length; then the object has exactly these data (zeros for missing uncertainties) and, for PDFs, the qmax found in them; no setting changes. Values of another length than x are rejected without any change.","all sequences and object states","All inputs.",'peakextraction.py:PeakExtraction.setdata',Q+'PDFPeakExtraction.setdata')
p("Data and settings agree after setdata","After setdata the settings fit the new data, and rejected data leave the object alone. Violated: uncertainties (effective_dy), range, previous results and a qmax found in the previous data survive, also with another length, and data with wrong uncertainties are stored before ValueError is raised.","all sequences and object states","Histories.",'peakextraction.py:PeakExtraction.setdata',Q+'PDFPeakExtraction.setdata')
p("A baseline given as a function is estimated from the range","defaultvars replaces a baseline function by the baseline it estimates from exactly the points in the range in effect and their values; if it cannot estimate, by the zero baseline; other exceptions escape and leave the setting.","all increasing data, ranges (given, partly given or default) and estimators","All data.",'peakextraction.py:PeakExtraction.defaultvars','peakextraction.py:PeakExtraction.getrangeslice')
p("loadpdf starts from a clean object","After loadpdf the object has the data and qmax of the data set and no setting or result of before; if the file cannot be read it is empty.","all data sets, readers and object states","All histories.",Q+'PDFPeakExtraction.loadpdf',Q+'PDFPeakExtraction.clear')
p("qmax falls back to the data","If the data file reports no qmax, the one found in the data is used (reported, then from data, then 0). Violated: a data set without qmax reports 0, which is taken as a value, so after loadpdf qmax is 0 and there are no termination ripples.","all files without qmax","All data.",Q+'PDFPeakExtraction.loadpdf',Q+'PDFPeakExtraction.defaultvars','pdfdataset.py:PDFDataSet.clear')
p("Estimating a peak from data","Estimation needs as many values as positions and at least three positive values; otherwise it raises SrMiseEstimationError. In all other cases it returns three finite parameters whose width is positive and at most maxwidth.","all data with increasing positions, all maxwidth, both Gaussian peak functions","All data.",'peaks/gaussianoverr.py:GaussianOverR.estimate_parameters','peaks/gaussian.py:Gaussian.estimate_parameters')
p("The estimated peak fits the data's extent and height","The estimated peak lies within the points with positive values, has positive area, and its value at its position is exactly the largest value of the data.","all data with increasing (for GaussianOverR positive) positions and at least three positive values","All data.",'peaks/gaussianoverr.py:GaussianOverR.estimate_parameters','peaks/gaussian.py:Gaussian.estimate_parameters')
p("Estimation is exact on a noise-free peak","For the values of a Gaussian sampled on a grid that is symmetric about its maximum and contains it, estimation returns exactly that Gaussian's parameters.","all positions, widths up to maxwidth, positive areas and symmetric grids","All parameters and grids.",'peaks/gaussian.py:Gaussian.estimate_parameters')
p("What estimation depends on","Points with zero or negative value do not influence the estimate, and multiplying the data by a positive factor multiplies the area and changes neither position nor width.","all data, factors and both Gaussian peak functions","All pairs of inputs.",'peaks/gaussianoverr.py:GaussianOverR.estimate_parameters','peaks/gaussian.py:Gaussian.estimate_parameters')
p("A peak estimated from level data ends inside it","A peak estimated from data that all have the same value has died down at the ends of the data, as the source promises. Violated: the width is taken as 1.44 times the extent of the data, so the peak still has more than half its height at both ends.","all level data whose extent is not limited by maxwidth","All grids and heights.",'peaks/gaussian.py:Gaussian.estimate_parameters')
p("Estimating a polynomial baseline","Degrees above 1 raise NotImplementedError, constant and empty polynomials are estimated as zero, and degree 1 as the line through the origin that fits the least tenth of the values (at least one) best in the sense of least squares; so if these values carry no signal, the line is the true baseline.","all data and degrees, whatever the order among equal values","All data.",'baselines/polynomial.py:Polynomial.estimate_parameters')
p("Estimating one peak at a coordinate","estimate_peak(x) raises ValueError and changes nothing if x lies outside the data. Otherwise exactly the points of one cluster of the data left over after baseline and known peaks are used: the cluster holding the first point at or right of x. At most one peak results: it is the initial estimate for these points or the better peak the optimiser made of it. It is returned, and only with add=True it is added (to the extracted peaks if there are any, else to the initial peaks), in position order and changing nothing else. If no point of the cluster rises to its uncertainty, None is returned and nothing changes.","all data with increasing x, all known peaks and baselines, all coordinates, estimators and optimisers","All data, coordinates and heuristics.",'peakextraction.py:PeakExtraction.estimate_peak','peakextraction.py:PeakExtraction.add_peaks')
p("A peak is estimated near the given coordinate","estimate_peak(x) uses the cluster nearest to x. Violated: between two clusters the right-hand one is always used, however far away it is.","a witness configuration","A history of clustering steps and the position of x relative to all clusters.",'peakextraction.py:PeakExtraction.estimate_peak','dataclusters.py:DataClusters.find_nearest_cluster2')
p("Estimated peaks are taken into account by the next estimate","After a peak has been added, the next estimate works on the same points with the same uncertainties and exactly the previously remaining values minus the values of that peak.","all data, known peaks, baselines and added peaks (exact arithmetic)","All states.",'peakextraction.py:PeakExtraction.estimate_peak','peakextraction.py:PeakExtraction.add_peaks')
p("Command line options reach the extraction",
  "When the program `srmise FILE [options]` gets to the extraction, the data are exactly those of FILE and every extraction variable has the value its option gives: --range, --qmax (a number, or 'automatic': the value found in the data), --nyquist, --cres, --supersample (at least 1), --scale; where the option is missing, the documented default (whole range, qmax of the file, Nyquist resampling exactly if qmax is positive, clustering resolution pi/qmax or from the spacing, supersampling 4, no scaling). With a readable file and valid options it always gets there.",
  "all option combinations, files and libraries around the program",
  "The combinations of two dozen options and all data files cannot be enumerated.",
  "applications/extract.py:main", "pdfpeakextraction.py:PDFPeakExtraction.setvars,defaultvars,loadpdf")
p("The uncertainty options mean what the help says",
  "absolute: --dg itself at every point (also --dg without a mode); max-fraction and ptp-fraction: the fraction of the maximum, or of maximum minus minimum, of the PDF; dG-fraction: the fraction of each reported uncertainty; data, or no option: the reported uncertainties. Missing --dg means 0.05 for the first two fractions and 1 for the last.",
  "all files, modes and values",
  "All data and values.",
  "applications/extract.py:main")
p("The baseline options mean what the help says",
  "Each number in --bpoly0/1/2, --bcrystal and --bspherical becomes a free parameter, a number with 'c' appended a fixed one, in the documented order (a1 r + a0, a2 r^2 + a1 r + a0); --bcrystal rho is the line -4 pi rho r; scale and radius are taken positive; --baseline NAME is estimated from exactly the points in the range and, if the function cannot estimate, is the zero baseline; no option gives the zero baseline.",
  "all texts, float parsers, data and ranges",
  "All texts and data.",
  "applications/extract.py:main,parsepars", "baselines/polynomial.py:Polynomial", "baselines/nanospherical.py:NanoSpherical")
p("A file without uncertainties uses 5 percent of the maximum (violated)",
  "Expected from the help: if the PDF reports no uncertainties the default mode is max-fraction, and every mode can be used. Actual: the uncertainties are taken to be the zeros filled in by the reader, so the extraction runs with uncertainty 0; the mode absolute without --dg raises TypeError, and ptp-fraction raises AttributeError with numpy 2.",
  "every file without uncertainties; every use of the two modes",
  "A default that silently applies to all such files.",
  "applications/extract.py:main", "pdfdataset.py:PDFDataSet.readStr")
p("--pf and --me select peak function and evaluator (violated)",
  "Expected: --pf and --me choose the peak function and the model evaluator. Actual: for every text the program prints a message and stops, because the modules the text is looked up in were never imported.",
  "every text and file",
  "Every text fails.",
  "applications/extract.py:main")
p("Options can switch features off (violated)",
  "Expected: --no-nyquist prevents Nyquist resampling; --cres 0 and --supersample 0 are applied or rejected. Actual: a false or zero value is treated as not given, and the default (resampling whenever qmax is positive) is used.",
  "every file and combination of other options",
  "All files.",
  "applications/extract.py:main")
p("--bseq sets the baseline (violated)",
  "Expected: --bseq FILE uses the baseline interpolated from FILE. Actual: the extraction runs with the zero baseline, because a model part without parameters has length 0 and counts as false.",
  "every file of values, every PDF",
  "All files.",
  "applications/extract.py:main", "modelparts.py:ModelPart.__len__", "baselines/fromsequence.py:FromSequence")
p("Saved extractions can be used as input (violated)",
  "Expected: --bsrmise FILE uses the baseline of a saved extraction, and a .srmise file given as input restores its settings. Actual: --bsrmise raises for every file, and the settings in the input file never have any effect.",
  "every file content",
  "All contents.",
  "applications/extract.py:main", "peakextraction.py:PeakExtraction.read,readstr")
p("What the program writes",
  "If the extraction raises, nothing is written. Otherwise --save and --pwa write exactly the requested files with the text of the final state. Violated part: if the --save file cannot be opened the program ends with the operating system's exception and the summary is not written, although main has a handler that reports the failure and goes on; --pwa with --no-extract ends with an uncaught exception.",
  "all states, file systems and outcomes of the extraction",
  "All crash points between the steps.",
  "applications/extract.py:main", "peakextraction.py:PeakExtraction.write", "pdfpeakextraction.py:PDFPeakExtraction.writepwa")
p("What a fit minimises",
  "The vector handed to the optimiser is (observed - model) / uncertainty at exactly the points of the fitted range, in order, for the model whose free parameters are the given numbers and whose fixed parameters are unchanged; it is zero exactly when the model passes through every point of the range.",
  "all models, parameter vectors, data and ranges",
  "All models and data.",
  "modelparts.py:ModelParts.residual,value,pack_freepars", "basefunction.py:BaseFunction.value")
p("The derivatives given to the optimiser",
  "One row per free parameter, in the order of the free parameters, one entry per point of the range, each the partial derivative of the residual - for all models of GaussianOverR peaks with nonzero area, nanospherical baselines with positive parameters, constant baselines and fixed polynomial baselines, and for any class whose own Jacobian is right.",
  "all such models, parameter vectors, data and ranges",
  "Real-valued parameters: derivatives cannot be tested.",
  "modelparts.py:ModelParts.residual_jacobian", "basefunction.py:BaseFunction.jacobian")
p("Derivatives with a polynomial baseline (violated)",
  "Expected: the derivatives are also right when a polynomial baseline of degree at least one is fitted. Actual: with a free leading coefficient the derivative with respect to it is wrong at every point with r^degree <> 1, whatever the peaks are.",
  "all peaks, degrees, coefficients, data and ranges",
  "All models.",
  "modelparts.py:ModelParts.residual_jacobian", "baselines/polynomial.py:Polynomial._jacobianraw")
p("Scale of the fitted covariance (violated)",
  "Expected: the covariance stored by a fit is the optimiser's matrix times the sum of squared residuals divided by the number of fitted points minus the number of free parameters. Actual: the number of all data points is used although only the points of the range are fitted, so that for every fit over a part of the data all uncertainties are too small by a known factor; it is right for a fit over all data.",
  "all models, data and ranges",
  "All ranges.",
  "modelparts.py:ModelParts.fit", "modelcluster.py:ModelCluster.fit")
p("Covariance of the parameters as stored (violated)",
  "Expected: the covariance stored by a fit belongs to the stored parameters. Actual: parameters are brought to normal form after the optimiser returns and the matrix is not transformed, so if the optimiser ends at a negative area the covariance of position and area has the wrong sign; right for positive area.",
  "all peak parameters and covariance matrices",
  "All solutions of the optimiser.",
  "modelparts.py:ModelParts.fit", "peaks/gaussianoverr.py:GaussianOverR._transform_parametersraw")
p("The returned covariance describes the extracted model (violated)",
  "Expected: part l, parameter m of the covariance returned by extract/fit is part l, parameter m of the extracted model. Actual: it describes the peaks in the order in which the optimiser left them, including peaks removed after the fit, and after a fit that was undone it describes the rejected parameters. It is right when the optimiser kept the peaks in order, positions differ and nothing was removed.",
  "all models, data, optimisers and statistics",
  "Any optimiser result.",
  "modelcluster.py:ModelCluster.fit,cleanfit", "modelparts.py:ModelParts.fit", "modelcluster.py:ModelCovariance.setcovariance")

p("find_qmax: outcome for every PDF", "For r and y of the same length n with increasing end points, find_qmax raises IndexError for n < 4 and ValueError for 4 <= n < 8; for n >= 8, unless the spread of some group of Fourier coefficients is zero, it returns qmax = m*dq and dq = 2*pi/(r[-1]-r[0]), where m, between 2 and n/2-2, is the last index at which the ratio of the spread of the coefficients before and after it (of the data interpolated on 2n points) bends down most sharply.  The qmax found is positive and strictly below the Nyquist limit of the data, so a qmax found automatically never exceeds what the data can represent.  Arrays of different lengths raise ValueError.", "all PDFs of any length (real arithmetic)", "The data range over all finite arrays; the choice of the maximum and the limit must hold for each of them.", "pdfpeakextraction.py:find_qmax", "pdfpeakextraction.py:resample", "pdfpeakextraction.py:stdratio")
p("The qmax found is the frequency of the coefficient chosen, within a quarter of its reported uncertainty", "Whenever find_qmax returns (qmax, dq), the Fourier coefficient at which the spread ratio bends most is the sine transform of the interpolated data at a frequency Q that is not an alias, and |qmax - Q| < dq/4 (it is never exactly Q, because the code divides by the number of intervals instead of the number of points).", "all PDFs for which find_qmax returns a value", "Needs the trigonometric identity between DFT indices and frequencies, for every number of points.", "pdfpeakextraction.py:find_qmax")
p("Extraction metadata survive their text", "readmetadata(writemetadata()) sets exactly the seven PDF attributes (file name, nyquist, qmax, the two other qmax values, scale, supersample) to the written values, provided each value's repr has no line break and evaluates to it.  For any other text the attributes are read one after the other: the first missing field raises SrMiseDataFormatError, the attributes before it have been replaced then and the others keep their values.", "all values and all texts", "Values and texts are unbounded; the field names are prefixes of one another (qmax, qmax_reportedbypdf), so the pattern must be right for every text.", "pdfpeakextraction.py:PDFPeakExtraction.writemetadata", "pdfpeakextraction.py:PDFPeakExtraction.readmetadata")
p("The summary of extracted peaks is complete and its indices are right", "writepwastr raises SrMiseError without an extraction and TypeError if the baseline variable has become a function.  Otherwise, if every peak can be converted, the summary has one line per extracted peak, in order, with its position, width and area and the index of the line of the function it belongs to; the tables list exactly the functions used and those they decorate, each once, and every base index refers to an earlier line; the fitted baseline is listed with its labels in parameter order and the right function index.  This holds for every order in which Python lists a set.", "all extractions, function graphs without cycles and set orders", "The order of a set of objects differs from run to run; graphs and numbers of peaks are unbounded.", "pdfpeakextraction.py:PDFPeakExtraction.writepwastr", "basefunction.py:BaseFunction.safefunctionlist")
p("Parameters by name or index", "For a part whose function has a valid parameter dictionary, part[name] and getfree(name) give the value and the free flag at the index of that name; setfree(key, b) makes exactly the flags that the same key (name, index or slice) reads equal to b and returns all others unchanged; unknown names raise IndexError.", "all parts, dictionaries, names, indices and slices", "Dictionaries, vectors, indices and slices are unbounded.", "modelparts.py:ModelPart.__getitem__", "modelparts.py:ModelPart.getfree", "modelparts.py:ModelPart.setfree")
p("Parts of a model by index, slice or pair", "model[i] is the i-th part (counted from the end if negative; IndexError outside), model[a:b] and model[a, b] are models with the parts a to b-1 in order, cutting anywhere loses and repeats nothing, and tuples that are not pairs raise TypeError.", "all models, indices and bounds", "Models and bounds are unbounded integers.", "modelparts.py:ModelParts.__getitem__")
p("Changing the parameter format of a model", "ModelParts.transform converts the parameters of every part with its own function; parts whose functions do not know the formats keep their parameters; any other error is raised after exactly the parts before it have been converted.  Converting back restores every part when the conversions are inverse to each other.", "all models, formats and functions", "Arbitrary mixtures of functions and formats, and errors at any part.", "modelparts.py:ModelParts.transform", "basefunction.py:BaseFunction.transform_parameters")
p("covariance() and pgradient() return what they document (violated)", "ModelParts.covariance returns the estimated covariance matrix in the requested formats and BaseFunction.pgradient the gradient matrix of a format.  Violated: for every model and keywords covariance returns None or raises, and pgradient always returns None.", "all models, keywords and formats", "No test of particular inputs shows that no input ever gives a matrix.", "modelparts.py:ModelParts.covariance", "basefunction.py:BaseFunction.pgradient")
p("Peak positions drawn for comparison", "comparepositions draws one vertical line for each extracted position within [pmin, pmax], in order, and one for each ideal position, separated by gaps, with limits and ticks that match.", "all lists of positions and limits", "Lists of positions and limits are unbounded.", "applications/plot.py:comparepositions")
p("Positions drawn against the uncertainty", "dgseries draws exactly one point (position, dg*scale) for each position within [pmin, pmax] of each stored result whose dg is within the limits; with results in ascending order of dg and no limits given, all results are shown.", "all stored results, limits and positive scales", "Results, limits and scales are unbounded.", "applications/plot.py:dgseries")
p("All stored results are drawn by default (violated)", "With no limits given, dgseries shows every stored result.  Violated: whenever the first stored uncertainty is larger than the last nothing is drawn, because the first and last results are taken as the limits.", "all stored results in an order with the first dg above the last", "Holds for every such list of results.", "applications/plot.py:dgseries")
p("The plotting program draws saved files (violated)", "srmise-plot draws a saved extraction or stability file, optionally with a file of distances to compare.  Violated: for every file content the program reports that it is not a data file, and readcompare raises for every file.", "all file contents", "A claim about every possible file.", "applications/plot.py:main", "applications/plot.py:readcompare", "peakextraction.py:PeakExtraction.read", "peakstability.py:PeakStability.load")
p("Log levels are respected",
  "After any sequence of addfilelog, setfilelevel and setlevel calls (levels given by the five names or positive integers), the console shows exactly the messages of at least the level last passed to setlevel (INFO at the start), independently of any log files; a newly opened log file whose level is then set with setfilelevel receives exactly the messages of at least that level, whatever was called before and however the console level changes later.",
  "all call histories, all message levels, any level of the root logger", "Histories are unbounded; the logger's own level is shared by all outputs.",
  'srmiselog.py:setlevel','srmiselog.py:setfilelevel','srmiselog.py:addfilelog')
p("The level given to addfilelog is used (violated)",
  "addfilelog(file, level) makes the file receive the messages of at least that level, and accepts the level names setlevel and setfilelevel accept.  The code violates it: the logger is not lowered, so a DEBUG log file stays without debug messages, and every such name raises ValueError, leaving a handler that setfilelevel accepts but that no message reaches.",
  "all levels and names", "The failure depends on the logger's state.",
  'srmiselog.py:addfilelog')
p("Rejected and extreme levels (violated)",
  "A level that setlevel rejects has no effect, and a lower level never hides messages.  Unknown names and objects are rejected without effect, but the upper-case names of Python's logging raise TypeError after the console level has changed, and setlevel(0) hides INFO messages because the root logger's level takes over.",
  "all levels and states", "Needs all levels; depends on the root logger.",
  'srmiselog.py:setlevel','srmiselog.py:setfilelevel')
p("Rejected liveplotting calls have no effect (violated)",
  "liveplotting sets both switches when both arguments are booleans, and a rejected call changes nothing.  The code violates the second half: if only the second argument is rejected the first switch has already been set.",
  "all states and arguments", "A single rejected call in a test may start from the same value.",
  'srmiselog.py:liveplotting')
p("What makeplot draws at which points", "The observed curve is drawn at every point of the model's grid, at points before it in steps of (r[-1]-r[0])/len(r) while they are above xlo, and after it in the same steps until xhi is reached (exactly the grid if xlo and xhi are left alone); on a uniform data grid it passes through the scaled datum at every data point where it is drawn.  The fit and the peaks are drawn at ten points per grid point in equal steps over [r[0], r[-1]).", "all grids, data, limits and scales", "Grids, data and limits are unbounded.", "applications/plot.py:makeplot", "pdfpeakextraction.py:resample")
p("The layout of the picture keeps data, residual and insets apart", "With limits left to makeplot and offsets that leave room, in percent of the height: all data, fit and (if individual peaks are shown) peak values stay below the insets by datatop_offset, every residual value stays below every data value by databottom_offset and above the lower limit by bottom_offset.  makeplot succeeds whenever at least one curve is shown and the inset of uncertainties, if any, has results.", "all data, models, masks, scales, offsets and choices of curves", "Holds for every combination of switches and values.", "applications/plot.py:makeplot")
p("show_individual controls whether individual peaks are drawn (violated)", "The individual peaks are drawn exactly if show_individual is set.  Violated: whether they are drawn depends only on fill_individual.", "all plots that succeed", "No single figure shows that the switch is never used.", "applications/plot.py:makeplot")
p("Explicit limits make defaults unnecessary (violated)", "With min_gr and max_gr given the residual can be shown alone, and dg_height reserves room for the inset.  Violated: without any of observed, fit and individual curves makeplot always raises, because the defaults are computed anyway, and a positive dg_height without stability results always raises.", "all data, models and keyword combinations with those switches", "A claim about every combination of the remaining keywords.", "applications/plot.py:makeplot")
p("Curves of a model cluster", "plottable() returns grid/values pairs: first the cluster's data, then for every peak in order the baseline plus that peak over the cluster's grid; plottable(True) returns the data and the baseline plus all peaks.  plottable_residual() returns the grid and the data minus that sum, point by point.", "all clusters, slices, baselines and peaks", "Numbers of peaks and points are unbounded; the list is built by overwriting places.", "modelcluster.py:ModelCluster.plottable", "modelcluster.py:ModelCluster.plottable_residual", "modelcluster.py:ModelCluster.value")
p("plot(joined=...) of an extraction is respected (violated)", "PeakExtraction.plot takes the keywords of plottable: joined=False shows the peaks separately.  Violated: any keyword makes the joined curve be shown; only plot() without keywords shows separate peaks.", "all extractions and keywords", "No single picture shows that the value is never used.", "peakextraction.py:PeakExtraction.plot")
p("The text of a covariance shows every parameter", "str(covariance) has a line per part with an entry per parameter, in order; each entry, and prettypar for the number or the pair of the parameter, shows exactly the value and uncertainty get() returns.  Without covariance both say so.", "all models and covariance matrices", "Models and matrices are unbounded.", "modelcluster.py:ModelCovariance.prettypar", "modelcluster.py:ModelCovariance.__str__")
p("Cluster boundaries as points (violated)", "cluster_boundaries returns the (x, y) points of all boundaries: half way between neighbouring clusters, and for outer clusters the edge of the data.  Violated: it returns one flat list with the sorted x and y values mixed, and a cluster at the first datum gives NaN.", "all data and clusterings", "A claim about all clusterings.", "dataclusters.py:DataClusters.cluster_boundaries")
p("Clusterings can be shown and animate restores the state (violated)", "DataClusters.plot draws the boundaries and animate shows the clustering and restores the state.  Violated: plot raises IndexError whenever there is a cluster; animate raises after its first step and leaves the clustering restarted.", "all states", "A claim about all states.", "dataclusters.py:DataClusters.plot", "dataclusters.py:DataClusters.animate")
p("Animating stored results restores the selected one", "PeakStability.animate never changes stored results, models or settings, and if a stored result was selected, a complete animation of any sequence of results restores the whole state (selection, uncertainty, extracted cluster).", "all stored results, sequences of indices, drawing outcomes", "Sequences of results are unbounded.", "peakstability.py:PeakStability.animate", "peakstability.py:PeakStability.setcurrent")
p("Animating does not change the extraction (violated)", "animate only shows results.  Violated: with no result selected (as after run()) a complete animation discards the extracted cluster; without results it raises and selects a result that does not exist; a bad index stays selected.", "all states", "A claim about all states without a selection.", "peakstability.py:PeakStability.animate")
p("A written data set is read back", "writeStr followed by readStr on the text gives back the scattering type, qmax (two decimals), qdamp, qbroad, dscale, the columns r and G (six significant digits), every metadata entry with its exact value, uncertainty columns that are positive, and rmin, rmax as the first and last r.", "all non-empty data sets with finite values and equal column lengths, all metadata with distinct word keys, all dates and user names without newline or '=' (for neutron data: that do not name x-ray)", "Must hold for every text the regular expressions can be confused by.", "pdfdataset.py:PDFDataSet.writeStr", "pdfdataset.py:PDFDataSet.readStr")
p("Nothing is lost by writing and reading (violated)", "writeStr and readStr preserve every data set.  Violated: neutron data become X-ray data when the login of the user contains xray, x-ray or pdfgetx; spdiameter is never written; one zero uncertainty replaces the whole column by zeros; an empty data set is written but cannot be read.", "all data sets", "A claim about all data sets and users.", "pdfdataset.py:PDFDataSet.writeStr", "pdfdataset.py:PDFDataSet.readStr")
p("Header values are found", "A header line 'key = value' sets the value: qmax, qdamp or qsig, qbroad or qalp, spdiameter, dscale, in any mixture of upper and lower case and with any number of spaces around '='.", "all headers whose earlier lines have no '=', all numerals", "The number of spellings, spaces and surrounding lines is unbounded.", "pdfdataset.py:PDFDataSet.readStr")
p("The number in the header is the number read (violated)", "readStr reads the number written after the key.  Violated: a unit directly after the number truncates it at the decimal point (qmax=25.5A is 25) or hides it (qmax=25A is ignored).", "all header values", "Backtracking of the regular expression.", "pdfdataset.py:PDFDataSet.readStr")
p("Writing a file is all or nothing until it is opened", "PDFDataSet.write, PeakExtraction.write and PDFPeakExtraction.writepwa make the whole text before they open the file: if the text cannot be made, the file keeps its contents.  At every moment, also after a crash or a failure of the operating system, the file holds its old contents or a beginning of the new text, and no other file is touched; when the method returns the file holds the whole text.  TracePeaks.write and PeakStability.save also touch only their own file and have written all of it when they return.", "all texts, file names, disks, crash points, failures of open, write and close, times at which buffers reach the disk", "Crash points, failures and flushing times are not under the control of a test.", "pdfdataset.py:PDFDataSet.write", "peakextraction.py:PeakExtraction.write", "pdfpeakextraction.py:PDFPeakExtraction.writepwa", "srmiselog.py:TracePeaks.write", "peakstability.py:PeakStability.save")
p("An interrupted write keeps a usable file (violated)", "If the program stops while it writes a file, the file holds the old or the new contents.  Violated: every beginning of the new text, also the empty one, is possible, and the old contents are gone.", "all texts, all crash points", "A crash point can be anywhere.", "pdfdataset.py:PDFDataSet.write", "peakextraction.py:PeakExtraction.write")
p("Data sets survive on disk", "PDFDataSet.write followed by read on the same name gives the same data with numbers rounded to the digits written, and records the full path of the file; read of a file that is missing or not readable text raises without touching the disk.", "all writable data sets, disks, file names, readers", "Every data set, name and disk.", "pdfdataset.py:PDFDataSet.write", "pdfdataset.py:PDFDataSet.read")
p("A truncated data file is noticed (violated)", "Reading a data file whose writing was interrupted raises an error.  Violated: for every k smaller than the number of points there is a crash point after which the file is read without complaint as a data set of the first k points.", "all writable data sets, all numbers of points", "Crash points.", "pdfdataset.py:PDFDataSet.write", "pdfdataset.py:PDFDataSet.read")
p("A failed text leaves the file alone for traces and stability results (violated)", "If the text of a trace or of stability results cannot be made, the existing file keeps its contents.  Violated: TracePeaks.write and PeakStability.save open, and so empty, the file first.", "all files, all errors", "A claim about all failures.", "srmiselog.py:TracePeaks.write", "peakstability.py:PeakStability.save")
p("Trace files of one operation", "While tracing to files, each trace of an operation that passes the filter is written completely to its own file, numbered from 0 in the order of the calls, and no other file is touched.", "all sequences of traces and nested calls within one operation", "Sequences and nesting are unbounded.", "srmiselog.py:TracePeaks.emit", "srmiselog.py:TracePeaks.write")
p("Trace files stay (violated)", "The trace files of an operation stay on disk when the next operation is traced.  Violated: numbering starts at 0 again and the next operation replaces them.", "all pairs of operations", "A claim about histories.", "srmiselog.py:TracePeaks.emit", "srmiselog.py:TracePeaks.pushc")
p("Tables of information criteria on disk (violated)", "makeaics with a filename sets the tables of the object whatever happens to the file, and the file is complete when it returns; loadaics of that file restores the tables.  The second half is violated: loadaics raises for every file, after replacing the table of the object.", "all tables, files, disks", "Every table and every disk.", "multimodelselection.py:MultimodelSelection.makeaics", "multimodelselection.py:MultimodelSelection.loadaics")
p("When the text of an extraction can be made", "PDFPeakExtraction.writestr returns a text exactly if the clustering resolution is set, the extracted model (if there is one) has its peak functions, and none of the arrays x, y, dx, dy, effective_dy has fewer values than the last of them that is set; in every other case it raises.", "all extractions: any lists of functions, peaks, baselines, arrays and results", "Every combination of attributes and every array length.", "peakextraction.py:PeakExtraction.writestr", "pdfpeakextraction.py:PDFPeakExtraction.writemetadata")
p("Any extraction can be saved (violated)", "An extraction can be saved.  Violated: the base class PeakExtraction can never be written, whatever it contains, because its writemetadata returns None where a string is joined.", "all extractions", "No extraction at all can be written.", "peakextraction.py:PeakExtraction.writestr", "peakextraction.py:PeakExtraction.writemetadata")
p("The text of an extraction is complete", "Whatever PDFPeakExtraction.writestr writes, the steps of readstr find again: copies of the peak and baseline functions with copies of their bases, the initial peaks, the baseline object, the resolution and the arrays (rounded to the digits written), the evaluator's name, the range, the kind of extraction and the attributes of the PDF, provided the search for the column of uncertainties, the lookup of the evaluator and ModelCluster.factory do what they are meant to do (they do not: C126, C127).", "all extractions whose values are preserved by repr and eval; all numbers of functions, peaks and rows", "Every text: unbounded numbers of functions, peaks, columns and rows.", "peakextraction.py:PeakExtraction.writestr", "peakextraction.py:PeakExtraction.readstr", "pdfpeakextraction.py:PDFPeakExtraction.readmetadata")
p('Extraction ends with a model','With a well-behaved optimiser and estimator (they return or raise their own SrMise error), peaks that may all be removed, at least one peak function and increasing data, an extraction ends and returns a model of removable peaks; no other exception leaves it. (What holds: a model or a ValueError.)','all data, uncertainties, resolutions, initial peaks, statistics, outcomes of the fits and estimates, and all nested extractions','the loop, joins, boundary recursion, augmenting and pruning interact; a failing combination needs particular data and fit results','src/diffpy/srmise/peakextraction.py:PeakExtraction.extract_single','src/diffpy/srmise/modelcluster.py:ModelCluster')
p('The neighbourhood of a border','When two clusters meet, and when a cluster reaches an end of the data, the peaks re-examined are the nearest one on each side of the border, all others are kept, and the data used contain the border. (What holds: at joins and at the left end; at the right end the border is read with the number of the cluster.)','all clusters, sorted peak lists, borders and data grids','needs all arrangements of peaks around a border and all cluster numbers','src/diffpy/srmise/peakextraction.py:PeakExtraction.extract_single')
p("A baseline from points can be made in exactly four ways","FromSequence(name), FromSequence(file=name), FromSequence(xs, ys) and FromSequence(x=xs, y=ys) succeed exactly if the file has rows of two numbers (resp. the two sequences have the same length) and the spline accepts the points; the safe range then is from the first to the last x. A call with any other combination of positional and keyword arguments raises TypeError and changes nothing. (Keywords other than x, y and file are ignored in the keyword forms.)","All argument lists, keyword dictionaries, files and sequences.","The combinations of arguments are unbounded; a test tries the four documented forms.","src/diffpy/srmise/baselines/fromsequence.py:FromSequence.__init__","src/diffpy/srmise/baselines/fromsequence.py:FromSequence.readxy")
p("A baseline from points is evaluated by its spline, and leaving the range of the points is reported","A FromSequence baseline has no parameters: parameters are refused with ValueError, nothing is estimated, the jacobian is empty. Its value is that of the spline at every r; for a number or an increasing array a warning is logged exactly if some r lies outside the points given; at the points themselves it is the y given if the spline passes through them.","All baselines made from increasing x, all arrays and numbers r.","For every array, including those that end outside on one side only.","src/diffpy/srmise/baselines/fromsequence.py:FromSequence._valueraw","src/diffpy/srmise/baselines/fromsequence.py:FromSequence._jacobianraw","src/diffpy/srmise/baselines/fromsequence.py:FromSequence._transform_parametersraw")
p("The text of a baseline from points describes that baseline","Writing a FromSequence baseline and reading the text back gives a baseline with the same spline and the same safe range.","All baselines from points, all later states of the lists they were made from.","Histories: what the user does with the lists between construction and writing is unbounded.","src/diffpy/srmise/baselines/fromsequence.py:FromSequence.xyrepr","src/diffpy/srmise/basefunction.py:BaseFunction.writestr","src/diffpy/srmise/basefunction.py:BaseFunction.factory")
p("An extraction changes the baseline only in its last fit, and never one without free parameters","The model extracted with a baseline that has no free parameter has that very baseline, and so has the model of every nested extraction. Otherwise its baseline is the one given or what the optimiser left in it in one fit that started from it.","All data, baselines, initial peaks, optimisers, depths.","For every data set and every behaviour of the optimiser, through the whole recursive extraction.","src/diffpy/srmise/peakextraction.py:PeakExtraction.extract_single","src/diffpy/srmise/modelcluster.py:ModelCluster.fit")
p("Equal parts and models are the same function","Two parts compare equal exactly if they belong to the same function object, have the same parameters (none of them NaN), the same parameters are free and both or none may be removed. This is symmetric and transitive. Models that compare equal have the same value on every grid, the same number of parameters and the same free parameters; a copied model without NaN compares equal to the original.","All states reachable by making, copying, fixing, changing and re-owning parts; all models, all grids.","All histories of the shared parts, all parameter values including NaN.","src/diffpy/srmise/modelparts.py:ModelPart.__eq__","src/diffpy/srmise/modelparts.py:ModelParts.copy","src/diffpy/srmise/modelparts.py:ModelParts.value")
p("Equal clusterings go on alike","Two DataClusters that compare equal give the same result for every sequence of next, reset, makeclusters and combine calls, and answer every query alike; those that differ in data, resolution, clusters or progress do not compare equal.","All pairs of objects, all sequences of calls.","Unbounded histories of calls after the comparison.","src/diffpy/srmise/dataclusters.py:DataClusters.__eq__","src/diffpy/srmise/dataclusters.py:DataClusters.next","src/diffpy/srmise/dataclusters.py:DataClusters.reset_clusters")
p("Animating the model probabilities does not change the results","animate_probs shows, for each uncertainty, its probabilities and the most probable stored model on its baseline, and leaves the stored results as they were. Violated: the result that is best at the first uncertainty is overwritten with the peaks of another one, is shown with those when it becomes best again, and the baseline of the first is shown throughout.","All stored results, all probability tables, all sequences of best models.","For every sequence of best models, through objects shared between the display and the stored results.","src/diffpy/srmise/multimodelselection.py:ModelSelection.animate_probs","src/diffpy/srmise/modelcluster.py:ModelCluster.replacepeaks","src/diffpy/srmise/peakstability.py:PeakStability.setcurrent")
p("Animating the class probabilities keeps the results and follows the best class","animate_classprobs leaves the stored results as they were, however it ends. A complete animation shows one picture per uncertainty with its class probabilities and, after the first, the dot at the best class; whenever the best class changes the peaks shown are those of its best member at that uncertainty.","All stored results, all classes and probability tables.","All sequences of best classes, all ways to fail on the way.","src/diffpy/srmise/multimodelselection.py:ModelSelection.animate_classprobs","src/diffpy/srmise/modelcluster.py:ModelCluster.replacepeaks")
p("The animation of classes shows the best model of the best class","At each uncertainty animate_classprobs shows the best member of the best class, and marks the best class. Violated: the model stays as long as the class stays, although another member may be best by then, and in the first picture the dot is at an uncertainty instead of a class number.","All stored results, all classes and probability tables.","All sequences of best classes.","src/diffpy/srmise/multimodelselection.py:ModelSelection.animate_classprobs")
p("The class probabilities can be plotted","plot3dclassprobs draws the classes whose largest probability lies in the filter. Violated: it never returns; with a class to draw it raises ValueError, since numpy cannot concatenate a zip object, without one the empty plot raises.","All objects, uncertainties, classes, filters, class sizes and norms.","For every state of the object and every choice of keywords.","src/diffpy/srmise/multimodelselection.py:ModelSelection.plot3dclassprobs")
p("Values and derivatives are restricted to the range asked for","For an array r, value and jacobian return arrays as long as r: the function at the positions the slice selects (Python's rules, negative positions included), r*0.0, which is zero for finite r, elsewhere; columns of fixed parameters are None. A Python number is evaluated whatever the range. Exceptions of the function are passed on; after a TypeError the function is evaluated once more on all of r.","All functions evaluated point by point, all r, all slices.","All slices including negative, empty and overlong ones, all lengths.","src/diffpy/srmise/basefunction.py:BaseFunction.value","src/diffpy/srmise/basefunction.py:BaseFunction.jacobian")
p("Every sequence and number may be used as r with a range","value(p, r, rng) restricts the evaluation to rng for every array-like r. Violated: for a list the range is ignored, a numpy number with a range raises IndexError, and infinite members of r outside the range give NaN.","All functions, all r, all slices.","For every kind of r.","src/diffpy/srmise/basefunction.py:BaseFunction.value","src/diffpy/srmise/basefunction.py:BaseFunction.jacobian")
p("Extraction leaves the user's baseline object alone", "If, with the baseline and the initial peaks taken off, the first data point of the range is not the highest one, extract_single() and extract() leave the content of the baseline object the user has set exactly as it was, whether they return or raise and whatever the fits do, and the extracted model holds a baseline object of its own.", "every data set, optimiser, baseline, initial peaks, resolution, with and without termination ripples and Nyquist sampling", "Depends on which cluster absorbs which over the whole history of the extraction loop.", 'peakextraction.py:PeakExtraction.extract_single','pdfpeakextraction.py:PDFPeakExtraction.extract','modelcluster.py:ModelCluster.join_adjacent','modelcluster.py:ModelCluster.fit')
p("Extraction never changes the baseline setting", "extract() never changes the baseline the user has set, calling it again gives the same result, and the results PeakStability has stored do not change when further uncertainties are run. VIOLATED where the first point of the range is the highest one: the extracted model may then hold the user's own baseline object, which the last fit changes in place.", "every data set and optimiser", "Only particular orders of clustering share the object.", 'peakextraction.py:PeakExtraction.extract_single','pdfpeakextraction.py:PDFPeakExtraction.extract','peakstability.py:PeakStability.run')
p("Uncertainties of nested searches","A nested search uses the uncertainties handed to it when every one of them is positive; otherwise it uses, at every point, five percent of the difference between the largest and the smallest of its data.","all data and uncertainties of a nested search","All data.","src/diffpy/srmise/peakextraction.py:PeakExtraction.defaultvars","src/diffpy/srmise/peakextraction.py:PeakExtraction.extract_single")
p("Extracted peaks are in order of position","Whenever a fit is accepted the peaks are in order of position afterwards. The peaks found by extract_single() are in order of position, unless the last fit was undone (or not made, because all data are within their uncertainties) after a fit of the pruning was, too; those found by extract() of a PDF, unless its last fit was undone or not made.","every data set, setting and optimiser","All inputs and fit outcomes.","src/diffpy/srmise/modelcluster.py:ModelCluster.fit","src/diffpy/srmise/peakextraction.py:PeakExtraction.extract_single","src/diffpy/srmise/pdfpeakextraction.py:PDFPeakExtraction.extract")
p("The traces an extraction makes","During an extraction that succeeds, every call and every recursion level the tracer is told of is closed again, nothing is closed that was not opened, and at most three levels are open at a time; starting from a tracer that is not inside a call, the counters are 0 afterwards and the traces that pass the filter are added to its memory, numbered 0, 1, 2, ... The traces of a search at its own level are first its steps (fewer than there are points; each a list of models of disjoint, ascending, separate ranges of the data; the last a single model of all of it) and then the models tried by pruning, each with fewer peaks than the one before, the last of them the peaks the search returns (before the final fit). The last trace of extract() is the extracted model, at level 0.","all data, initial peaks, baselines, peak functions, error methods and filters for which the extraction succeeds, whatever the fits return","the number of passes, recursions and prunings depends on the data and on every fit","src/diffpy/srmise/peakextraction.py: PeakExtraction.extract_single","src/diffpy/srmise/modelcluster.py: ModelCluster.prune","src/diffpy/srmise/pdfpeakextraction.py: PDFPeakExtraction.extract","src/diffpy/srmise/srmiselog.py: TracePeaks.pushc, popc, pushr, popr, emit")
p("Extraction is repeatable and stability runs do not depend on their history","If the first point of the range is not the highest one (baseline and initial peaks taken off), or the baseline has no free parameter, then calling extract() again on the object it has left gives the same outcome and the same object; PeakStability.run stores for every uncertainty exactly the model, baseline and grid spacing that one call of extract() with this uncertainty and the extracter's original baseline gives, and leaves that baseline unchanged; so the result stored for an uncertainty is the same whatever other uncertainties were run before it, in this run or earlier ones, and wherever it stands in the list.","all data, settings, lists of uncertainties, and earlier successful runs, whatever the fits return","depends on every earlier extraction through shared, mutable baseline and peak objects","src/diffpy/srmise/peakstability.py: PeakStability.run","src/diffpy/srmise/pdfpeakextraction.py: PDFPeakExtraction.extract","src/diffpy/srmise/peakextraction.py: PeakExtraction.extract_single")
p("ModelParts.fit keeps what extraction relies on","Whatever scipy's leastsq does, the fit a cluster makes returns its peaks (and baseline) same in number and order, with their owners, free flags and switches, and with the parameters held fixed (up to the owner's normal form); a successful fit of numbers leaves numbers; if leastsq answers with numbers and the Jacobian exists, only SrMiseFitError is raised. Hence the search for peaks ends after at most three levels whatever leastsq does, and an initial peak that is not removable is in the result with owner, flags and switches and, if held fixed, its parameters up to normal form.","every model of parts, baseline, cluster, data and behaviour of leastsq","The optimiser may evaluate anything, raise anything and answer anything; the consequences run through the whole recursive extraction.","src/diffpy/srmise/modelcluster.py:ModelCluster.fit","src/diffpy/srmise/modelparts.py:ModelParts.fit","src/diffpy/srmise/peakextraction.py:PeakExtraction.extract_single")
p("AIC and AICc through fitting, pruning and augmenting","With AIC or AICc as the error method, the quality of a cluster is the sum of squared (model - observed)/uncertainty plus twice the number k of free peak parameters (plus 2k(k+1)/(n-k-1) for AICc, n being at least k+2); an accepted fit never raises it; with justify a single peak is kept only if the parameters of one more peak could not lower it even by a perfect fit; pruning changes nothing or strictly lowers it, and augmenting never raises it, as long as no fit is undone.","every cluster, data, models, optimiser and estimator; exact arithmetic","The claim is about every path through the nested searches and an arbitrary optimiser.","src/diffpy/srmise/modelcluster.py:ModelCluster.quality","src/diffpy/srmise/modelcluster.py:ModelCluster.prune","src/diffpy/srmise/modelcluster.py:ModelCluster.augment","src/diffpy/srmise/modelevaluators/aic.py:AIC.evaluate","src/diffpy/srmise/modelevaluators/aicc.py:AICc.evaluate")
p("Protected peaks survive a PDF extraction whatever leastsq does",
 "With peaks and baseline fitted by ModelParts.fit, for every behaviour of scipy's leastsq: every initial peak that is not removable is in the result of a successful PDFPeakExtraction.extract() with its free flags and switches, with its own peak function (no qmax, static owner, or already with ripples) or else with termination ripples added to it, and with unchanged parameters (up to the normal form) if all are held fixed. fit() returns initial peaks only: same function, flags, switches, fixed parameters up to the normal form, none added, only removable ones missing.",
 "all data, ranges, qmax, initial peaks, peak functions, estimates, statistics, and all answers, exceptions and intermediate parameter updates of leastsq",
 "the optimiser's behaviour on every intermediate model cannot be enumerated",
 "src/diffpy/srmise/pdfpeakextraction.py:PDFPeakExtraction.extract","src/diffpy/srmise/pdfpeakextraction.py:PDFPeakExtraction.fit","src/diffpy/srmise/modelparts.py:ModelParts.fit","src/diffpy/srmise/modelparts.py:ModelPart.changeowner","src/diffpy/srmise/peaks/terminationripples.py:TerminationRipples")
restate('C201',"With a well-behaved optimiser and estimator (they return or raise their own SrMise error; a fit of no peaks may raise ValueError), peaks that may all be removed, at least one peak function and increasing data, an extraction ends and returns a model of removable peaks; no other exception leaves it. (What holds: a model or a ValueError.)")
restate('C221',"Whatever scipy's leastsq does, the fit a cluster makes returns its peaks (and baseline) same in number and order, with their owners, free flags and switches, and with the parameters held fixed (up to the owner's normal form); a successful fit of numbers leaves numbers; if leastsq answers with numbers and the Jacobian exists, only SrMiseFitError is raised, except for an empty model without baseline: ValueError. Hence the search for peaks ends after at most three levels whatever leastsq does, with a model of removable peaks or with ValueError if leastsq is so and the initial peaks are removable, and an initial peak that is not removable is in the result with owner, flags and switches and, if held fixed, its parameters up to normal form.")
restate('C144',"When the program `srmise FILE [options]` gets to the extraction, the data are exactly those of FILE and every extraction variable has the value its option gives: --range, --qmax (a number, or 'automatic': the value found in the data), --nyquist, --cres, --supersample (at least 1), --scale; where the option is missing, the documented default (whole range, qmax of the file, Nyquist resampling exactly if qmax is positive, clustering resolution pi/qmax or from the spacing, supersampling 4, no scaling). With a readable file and valid options it always gets there; with another number of files than one it ends with a usage message.")
p("The trace filter is the conjunction of its expressions","settracer(filter=[...]) with well-formed expressions is accepted; every emit then makes exactly one trace if all expressions are true at that time, and otherwise none: the first expression (in the given order) that is false stops silently, one that raises passes its exception on, and later expressions are not evaluated. The tracer made without a filter never makes a trace.","every non-empty list of expressions over and, or, not, if-else and parentheses, every values or exceptions of the operands, every tracer state","Tests use one or two simple filters; the meaning of the joined text for every nesting of operators needs an argument about the grammar.","src/diffpy/srmise/srmiselog.py:TracePeaks.setfilter","src/diffpy/srmise/srmiselog.py:TracePeaks.emit","src/diffpy/srmise/srmiselog.py:settracer")
p("Every filter expression can only restrict","Adding a text to the filter never makes more traces, a text that is not an expression is refused, and an empty list means no restriction. Violated: a text like 'a) or (b' is accepted, because the texts are pasted between parentheses, and makes a trace although another expression is false; an empty list is a SyntaxError.","every tracer and every operands a, b, c","A test would have to contain exactly such a text.","src/diffpy/srmise/srmiselog.py:TracePeaks.setfilter")
p("An accepted fit leaves a clean, ordered model","When fit() reports a new quality, the model holds exactly the peaks as the optimiser left them, in order of position, without those that have a NaN parameter (also if protected) and without removable peaks that lie before the first point, or at or behind the last point, of the cluster and stay below the uncertainty at every point; no other peak is lost.","every cluster, optimiser outcome and fit option","A unit test sees one optimiser outcome; the claim is about all of them.","src/diffpy/srmise/modelcluster.py:ModelCluster.fit","src/diffpy/srmise/modelcluster.py:ModelCluster.cleanfit")
p("Clusters do not depend on units","Measuring the coordinates in other units or from another origin (with the threshold in the same units), and changing the values in any way that keeps their order, changes nothing about clustering: construction succeeds or fails alike, and every sequence of next steps, resets and joins has the same outcomes, clusters, last point and last cluster; the nearest cluster to a point or coordinate is the same, at the rescaled distance.","every data set with distinct values (or sorts that agree on equal values), threshold, positive factor, offset, strictly increasing change of the values and sequence of operations","A unit test compares one data set in two units; the claim is about all histories.","src/diffpy/srmise/dataclusters.py:DataClusters")
p("Estimates do not depend on units","Measuring the intensities and the distances (with the maximal width) in other units changes an estimated peak only by the units: same error or the same peak with the position in the new units, the same fraction of the maximal width and the area times intensity unit times distance unit (squared for GaussianOverR); for Gaussian the distances may also be counted from another origin. An estimated polynomial baseline is the same curve in the new units.","all data, maximal widths, degrees, positive factors and offsets (exact real arithmetic)","A unit test compares one data set in two units; the claim is about all of them.","src/diffpy/srmise/peaks/gaussianoverr.py:GaussianOverR.estimate_parameters","src/diffpy/srmise/peaks/gaussian.py:Gaussian.estimate_parameters","src/diffpy/srmise/baselines/polynomial.py:Polynomial.estimate_parameters")
p("Fits and comparisons do not depend on the unit of the intensities","Giving intensities, uncertainties and the parameters that are proportional to intensity (areas of peaks, coefficients of a polynomial baseline, the scale of a nanospherical baseline) in another unit leaves the vector handed to the optimiser unchanged for every model, choice of free parameters, parameter vector and range: it is the same least-squares problem. AIC and AICc judge a model the same in any unit and for any order of the points: same quality, same errors, same answer of growth_justified.","all models, free flags, parameter vectors, data with nonzero uncertainties, ranges and positive factors (exact real arithmetic)","A unit test compares one model in two units; the claim is about all of them.","src/diffpy/srmise/modelparts.py:ModelParts.residual","src/diffpy/srmise/modelevaluators/base.py:ModelEvaluator.chi_squared","src/diffpy/srmise/modelevaluators/aic.py:AIC","src/diffpy/srmise/modelevaluators/aicc.py:AICc")
p("In double precision, widths convert without NaN and stay within the allowed range","Computed in binary64 arithmetic with rounding after every operation, a full width at half maximum between 0 and the maximal width is converted to the internal format of a Gaussian or GaussianOverR peak without NaN and without an error; every internal width parameter, however far out the optimiser has moved it, is converted to a finite width between 0 and the maximal width, which is accepted again; only widths above the maximum are refused.","Every maximal width that is a double of at least 2^-400, every width, every internal parameter, every arcsin, every sin with values between -1 and 1.","Rounding could push an argument of arcsin above 1, a square root below 0 or a width one unit above the maximum for some rare doubles; the proof excludes all of them, a test can only sample.","src/diffpy/srmise/peaks/gaussianoverr.py: GaussianOverR._transform_parametersraw","src/diffpy/srmise/peaks/gaussian.py: Gaussian._transform_parametersraw")
p("In double precision, a width survives the internal format to a stated accuracy","Computed in binary64 arithmetic with an arcsin and a sin accurate to d, the width obtained after conversion to the internal format and back differs from the original so that the squares differ by at most (d + 16*2^-53) times the square of the maximal width; the width itself differs by at most that bound divided by the width.","Every maximal width that is a double of at least 2^-400, every width between 0 and it, every d up to 1/100.","An error bound over all doubles cannot be established by sampling.","src/diffpy/srmise/peaks/gaussianoverr.py: GaussianOverR._transform_parametersraw","src/diffpy/srmise/peaks/gaussian.py: Gaussian._transform_parametersraw")
p("A peak's width is recovered from every format (violated)","Expectation: a peak accepted in one parameter format and written in another can be read back with its width. Violated in double precision: all widths up to 2^-29 of the maximal width share one internal value, and come back as width 0 when arcsin and sin are exact at the ends; and a peak at the maximal width, written as mu, sigma, area, may be refused when read back, because sigma times 2.3548... rounds above the maximum (maximal width 1.21875).","Every maximal width that is a double of at least 2^-400, every arcsin and sin (first part); maximal width 1.21875 (second part).","Both failures concern isolated regions of the inputs which the tests' parameters do not meet.","src/diffpy/srmise/peaks/gaussianoverr.py: GaussianOverR._transform_parametersraw","src/diffpy/srmise/peaks/gaussian.py: Gaussian._transform_parametersraw")
p("Chi-square in double precision","Computed in binary64 arithmetic, with the additions in any order and grouping, chi-square is a nonnegative number; it is 0 when every value equals its observation; it is at least the contribution of every single point; and if no intermediate result is subnormal it agrees with the exact chi-square up to a factor of (1 + 2^-52)^(n + 4) for n points.","Every list of values, observations and error bars (whose squares do not vanish), every order and grouping of the additions.","numpy's order of summation depends on length and memory layout; error bounds over all data cannot be sampled.","src/diffpy/srmise/modelevaluators/base.py: ModelEvaluator.chi_squared")
p("AIC and AICc in double precision","Computed in binary64 arithmetic, on the same number of points a model with at most as many parameters and at most as large a chi-square never has the larger AIC or AICc; more points never raise it; the statistic is never below chi-square, and AICc never below AIC; no growth is judged justified when chi-square is 0, and growth justified at one chi-square is justified at every larger one. As long as chi-square plus penalty stays below 2^52, one more parameter strictly raises AIC.","Every number of parameters and points, every chi-square.","Rounding could invert a comparison for rare values; the claim excludes this for all of them.","src/diffpy/srmise/modelevaluators/aic.py: AIC.evaluate, AIC.parpenalty, AIC.growth_justified","src/diffpy/srmise/modelevaluators/aicc.py: AICc.evaluate, AICc.parpenalty, AICc.growth_justified")
p("Parameters always count (violated)","Expectation: of two models with the same chi-square the one with fewer parameters has the lower AIC. Violated in double precision: from a chi-square of 2^56*(k+1) on (reached when error bars are tiny), the AIC of every model with at most k parameters is chi-square itself, so evaluators call them equal, while growth up to k parameters is judged justified.","Every k, every number of points, every double chi-square from 2^56*(k+1) on.","Tests use chi-squares of ordinary size.","src/diffpy/srmise/modelevaluators/aic.py: AIC.evaluate, AIC.growth_justified")
p("Akaike weights and probabilities in double precision","Computed in binary64 arithmetic, with the sum in any order and grouping: there is one weight and one probability for each model, all between 0 and 1; the models with the lowest statistic have weight exactly 1; a model with a lower statistic never has the lower weight or probability; the probabilities add up to 1 with an error of at most n*2^-53 + (1 + 2^-52)^(n-1) - 1.","Every nonempty list of statistics, every order and grouping of the additions, every exponential that is 1 at 0, between 0 and 1 below it, and not decreasing.","Rounding errors over all lists cannot be sampled.","src/diffpy/srmise/modelevaluators/aic.py: AIC.akaikeweights, AIC.akaikeprobs","src/diffpy/srmise/modelevaluators/aicc.py: AICc.akaikeweights, AICc.akaikeprobs")
p("The clustering claims hold of doubles","Doubles are numbered by integers in their order, each by exactly one, and every strictly increasing list of doubles by an increasing list of integers; under this numbering the rounded difference of two doubles is a function of the difference of their numbers which keeps order, is 0 only at 0, and commutes with multiplication by powers of two. So the claims on clustering, which are proved for integers and every rounding of this kind, hold of the x values of a data set as the code computes with them.","All doubles (no overflow), all pairs of them, all powers of two with exponent at least 0.","Statement about all doubles.","src/diffpy/srmise/dataclusters.py: DataClusters.next, DataClusters.find_nearest_cluster")
p("Peak values in double precision","Computed in binary64 arithmetic, a Gaussian whose internal width parameter does not have sine -1 has a nonnegative finite value at every point, never NaN; its value at its position is its largest, it is never larger at a point farther from its position, and a larger area never gives a smaller value. A GaussianOverR has a nonnegative finite value at every point at least 2^-400 away from 0 and never rises to the right of a positive position.","Every maximal width that is a double of at least 2^-400, every position, area, point and width parameter, every sine with values between -1 and 1, every exponential that is between 0 and 1 and not decreasing on negative numbers.","Rounding errors at arbitrary parameters cannot be sampled exhaustively.","src/diffpy/srmise/peaks/gaussian.py: Gaussian._valueraw","src/diffpy/srmise/peaks/gaussianoverr.py: GaussianOverR._valueraw")
p("A peak of positive width has a value (violated)","Expectation: a peak whose positive width is accepted has a number as its value at every point. Violated in double precision: a Gaussian or GaussianOverR peak at most 2^-29 times as wide as the maximal width gets an internal parameter at which every value is a division by zero.","Every maximal width that is a double of at least 2^-400, every width up to 2^-29 of it, every position, area and point (the sine of arcsin(-1) being -1).","Tests use widths of ordinary size.","src/diffpy/srmise/peaks/gaussian.py: Gaussian._valueraw, Gaussian._transform_parametersraw","src/diffpy/srmise/peaks/gaussianoverr.py: GaussianOverR._valueraw, GaussianOverR._transform_parametersraw")
p("Order of models in double precision","Computed in binary64 arithmetic, AIC and AICc differ from the exact criterion by at most a factor of 1 + (n + 5) * 2^-51; a model that is judged at least as good as another has an exact criterion at most 1 + (n + n' + 10) * 2^-51 times that of the other, and a model whose criterion is lower by more than that factor is judged better; n and n' are the numbers of points.","Every pair of models with up to 2^50 free parameters and up to 2^49 points whose error bars, deviations, their squares and quotients are 0 or not subnormal, every order and grouping of the additions of chi-square.","Accumulated rounding errors depend on all data and on the order of summation.","src/diffpy/srmise/modelevaluators/base.py: ModelEvaluator.chi_squared, __lt__","src/diffpy/srmise/modelevaluators/aic.py: AIC.evaluate, parpenalty","src/diffpy/srmise/modelevaluators/aicc.py: AICc.evaluate, parpenalty")
p("Fits judged in double precision","With AIC or AICc computed in binary64 arithmetic, a fit that reports a quality leaves the cluster with a computed criterion not above that of the cluster (or its estimated peak) it started from, and with an exact criterion at most 1 + (n + n' + 10) * 2^-51 times that one.","Every cluster, every result of the optimiser, every justify, ntrials, fitbaseline and estimate, every order and grouping of the additions of chi-square, data without subnormal intermediate results.","Every outcome of the optimiser and every rounding must be covered.","src/diffpy/srmise/modelcluster.py: ModelCluster.fit, ModelCluster.quality","src/diffpy/srmise/modelevaluators/aic.py: AIC.evaluate","src/diffpy/srmise/modelevaluators/aicc.py: AICc.evaluate")
p("Polynomial baselines in double precision","Computed in binary64 arithmetic, a polynomial baseline without parameters is 0, its value at 0 is exactly its last parameter, and for nonnegative r its value never decreases when a parameter grows. With nonnegative parameters its value is nonnegative, never decreases with r, and without underflow differs from the exact polynomial by at most a factor of 1 + n * 2^-50, n the number of parameters.","Every number of parameters, every parameters that are doubles, every nonnegative r.","Rounding errors at arbitrary parameters cannot be sampled exhaustively.","src/diffpy/srmise/baselines/polynomial.py: Polynomial._valueraw")
p("Nanoparticle baselines in double precision","Computed in binary64 arithmetic, a spherical nanoparticle baseline is exactly 0 outside the interval from 0 to twice its radius, and inside it differs from the exact value by at most |scale| * r * 2^-49.","Every scale, every positive radius that is a double, every r (for the bound, |scale| * r at least 2^-900).","The formula cancels near twice the radius, where sampled tests with ordinary tolerances see nothing.","src/diffpy/srmise/baselines/nanospherical.py: NanoSpherical._valueraw, _valueraw2")
p("Nanoparticle baselines are never positive (violated)","Expectation: like its exact value, the computed value of a spherical nanoparticle baseline is never positive. Violated in double precision: three units in the last place below twice the radius cancellation leaves a positive value (at most about |scale| * radius * 2^-53).","Every scale of at least 2^-400 in absolute value, every radius that is a power of two from 2^-400 to 2^400.","A single double per radius shows it; sampled tests do not hit it.","src/diffpy/srmise/baselines/nanospherical.py: NanoSpherical._valueraw2")
p("Residuals in double precision","Computed in binary64 arithmetic, the residual at a point is 0 where the model equals the data, never has the wrong sign and never grows with the calculated value; the sum of its squares, which the optimiser minimises, and the chi-square by which the evaluators judge the result are each at most 1 + (2n + 8) * 2^-51 times the other.","Every calculated and observed value, every positive uncertainty; for the sums, every n points whose intermediate results are 0 or not subnormal and every order and grouping of the additions in both.","The two computations round differently at every point.","src/diffpy/srmise/modelparts.py: ModelParts.residual, ModelParts.fit","src/diffpy/srmise/modelevaluators/base.py: ModelEvaluator.chi_squared")
restate('C240',"Computed in binary64 arithmetic, AIC and AICc differ from the exact criterion by at most a factor of 1 + (n + 5) * 2^-51; a model that is judged at least as good as another has an exact criterion at most 1 + (n + n' + 10) * 2^-51 times that of the other, and a model whose criterion is lower by more than that factor is judged better; n and n' are the numbers of points. Whether more parameters are justified is decided as in exact arithmetic unless the criterion is within a factor of 1 + (n + 9) * 2^-51 of the penalty for the enlarged number of parameters.")
restate('C241',"With AIC or AICc computed in binary64 arithmetic, a fit that reports a quality leaves the cluster with a computed criterion not above that of the cluster (or its estimated peak) it started from, and with an exact criterion at most 1 + (n + n' + 10) * 2^-51 times that one. With justify, a single peak is kept only if its exact criterion is at most that of a perfect fit with the smallest number of additional parameters, times 1 + (n + 9) * 2^-51, or there are too few points for so many parameters.")
p("Totals of models in double precision","Computed in binary64 arithmetic, the total value of n parts at a point is off by at most the total of their absolute values times n * 2^-51 and never lower when values of parts grow; that of no parts is 0. If no part is negative the total is at least the value of each part, further parts never lower it, it is off by at most a factor of 1 + n * 2^-51, and the order of the parts changes it by at most a factor of 1 + 2n * 2^-51.","Every number of parts up to 2^49, every finite values, every order.","Rounding errors depend on all values and their order.","src/diffpy/srmise/modelparts.py: ModelParts.value")
p("Uncertainties and correlations in double precision","Computed in binary64 arithmetic, an uncertainty is a nonnegative double, never smaller for a larger variance, and off by at most a factor of 1 + 2^-51. A correlation is exactly symmetric, 0 if a variance is 0, and never of the wrong sign; unless it is subnormal or a variance is below 2^-1000, it is off by at most a factor of 1 + 2^-49, and so at most 1 + 2^-49 for a covariance matrix.","All doubles: nonnegative variances, any covariance.","Rounding errors depend on all values.","src/diffpy/srmise/modelcluster.py: ModelCovariance.getcorrelation, ModelCovariance.getuncertainty")
p("A correlation is between -1 and 1 (violated)","Expectation: a correlation computed in double precision from a covariance matrix is between -1 and 1. Violated: the correlation with itself of a variable with variance 3 is 1 + 2^-52.","All doubles with covariance^2 at most the product of the variances.","Most variances give at most 1: whether the bound is met depends on the values.","src/diffpy/srmise/modelcluster.py: ModelCovariance.getcorrelation")
p("Correlations do not depend on binary units","In double precision, changing the units of two quantities by powers of two multiplies the uncertainties by exactly those factors and changes no bit of the correlation, as long as no variance is below 2^-1000 before or after.","All doubles: variances, every covariance, all powers of two.","Holds for every value and unit, and only exactly because every rounding commutes with the change of units.","src/diffpy/srmise/modelcluster.py: ModelCovariance.getcorrelation, ModelCovariance.getuncertainty")
with open('/verif/properties.jsonl','w') as f:
    for q in P: f.write(json.dumps(q)+'\n')
print(len(P))
for q in P: print(q['id'],q['title'])

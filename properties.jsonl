{"id": "C01", "title": "Clusters stay well formed", "statement": "At every moment between construction and exhaustion of a DataClusters iterator the reported clusters are index intervals [lo,hi] with 0<=lo<=hi<n, listed in strictly increasing order and pairwise disjoint; operations that raise leave them so.", "quantifier": "every data set (any length n>=1, any y, strictly increasing x), every resolution >=0, every finite sequence of next()/reset_clusters()/combine of adjacent clusters", "why_tests_cant": "A unit test fixes one data set and a couple of steps; the claim is an invariant of every reachable state for every data set.", "anchors": ["src/diffpy/srmise/dataclusters.py:DataClusters.__next__", "src/diffpy/srmise/dataclusters.py:DataClusters.combine_clusters", "src/diffpy/srmise/dataclusters.py:DataClusters.reset_clusters", "src/diffpy/srmise/dataclusters.py:DataClusters._setdata"]}
{"id": "C02", "title": "Every successful next() makes progress on the right point", "statement": "A next() that returns has just clustered a point (lastpoint_idx) that was not in any cluster before, all previously clustered points remain clustered, and that point is the one with the largest y among the points that were unclustered; the cluster reported in lastcluster_idx contains it.", "quantifier": "every reachable clustering state over every data set and resolution", "why_tests_cant": "The documented guarantee 'next() always adds at least one additional point' is over all states; tests look at a few hand-made steps.", "anchors": ["src/diffpy/srmise/dataclusters.py:DataClusters.__next__"]}
{"id": "C03", "title": "Clustering terminates and covers every point", "statement": "Iterating a DataClusters object (makeclusters) always stops after at most n-1 successful steps; when it is DONE every index 0..n-1 lies in exactly one cluster, and any further next() raises StopIteration without changing anything.", "quantifier": "every non-empty data set with strictly increasing x and every resolution >= 0", "why_tests_cant": "Termination and coverage for all inputs cannot be sampled.", "anchors": ["src/diffpy/srmise/dataclusters.py:DataClusters.__next__", "src/diffpy/srmise/dataclusters.py:DataClusters.makeclusters"]}
{"id": "C04", "title": "A new cluster is opened exactly when the point is farther than the resolution from all clusters", "statement": "When next() returns, it either opened a new one-point cluster, and then the point is at distance > res from every previously existing cluster, or it extended exactly one existing cluster (the nearest) up to that point, and then its distance to that cluster is <= res; no other cluster changes.", "quantifier": "every reachable clustering state, every data set, every resolution", "why_tests_cant": "Depends on every geometric configuration of clusters, including ties and boundaries.", "anchors": ["src/diffpy/srmise/dataclusters.py:DataClusters.__next__", "src/diffpy/srmise/dataclusters.py:DataClusters.find_nearest_cluster"]}
{"id": "C05", "title": "Nearest-cluster query is correct", "statement": "find_nearest_cluster(i) returns distance 0 exactly when i lies in a cluster (and then the index of that cluster); otherwise it returns a cluster whose near edge is at minimal distance from x[i], with positive sign if x[i] is right of it and negative if left, ties going to the right-hand cluster.", "quantifier": "every well-formed cluster list, every index, every strictly increasing x", "why_tests_cant": "A binary search over flattened intervals: correctness is over all interval layouts and indices.", "anchors": ["src/diffpy/srmise/dataclusters.py:DataClusters.find_nearest_cluster"]}
{"id": "C06", "title": "Coordinate query is correct", "statement": "find_nearest_cluster2(x) answers for any coordinate x (inside, between or outside data points) with the cluster nearest to the data point nearest to x.", "quantifier": "every coordinate and every clustering state", "why_tests_cant": "Boundary coordinates (left of the first, right of the last point) form an infinite family.", "anchors": ["src/diffpy/srmise/dataclusters.py:DataClusters.find_nearest_cluster2"]}
{"id": "C07", "title": "Adjacency query returns exactly the maximal runs of touching clusters", "statement": "When the maximal runs (length >= 2) of touching clusters all have the same length, find_adjacent_clusters() returns exactly those runs, in increasing order; it never returns anything else (it can only raise ValueError, and only when two runs differ in length).", "quantifier": "every well-formed cluster list", "why_tests_cant": "A nested while-loop over arbitrary lists; tests exercise a few layouts.", "anchors": ["src/diffpy/srmise/dataclusters.py:DataClusters.find_adjacent_clusters"]}
{"id": "C08", "title": "Combining clusters preserves the clustered points", "statement": "combine_clusters applied to runs reported by find_adjacent_clusters never raises, keeps exactly the same set of clustered points, keeps clusters well formed, removes exactly one cluster per merge, and afterwards no touching clusters remain; any accepted increasing request names runs of touching clusters, each once, and changes nothing but the cluster list; requests naming a cluster twice are rejected with nothing changed.", "quantifier": "every well-formed cluster list", "why_tests_cant": "Quantifies over all interval layouts.", "anchors": ["src/diffpy/srmise/dataclusters.py:DataClusters.combine_clusters", "src/diffpy/srmise/dataclusters.py:DataClusters.find_adjacent_clusters"]}
{"id": "C09", "title": "Reset restarts the same clustering", "statement": "After reset_clusters() the sequence of clusters and points produced by iterating is the same as for a freshly constructed object on the same data; with no data it raises rather than fabricating a cluster.", "quantifier": "every reachable state and data set", "why_tests_cant": "Equality of whole run histories.", "anchors": ["src/diffpy/srmise/dataclusters.py:DataClusters.reset_clusters", "src/diffpy/srmise/dataclusters.py:DataClusters._setdata"]}
{"id": "C10", "title": "Zero resolution makes every point its own cluster", "statement": "With res=0 and strictly increasing x, iteration ends with exactly n clusters, the i-th being [i,i], as the documentation promises.", "quantifier": "every data set with strictly increasing x", "why_tests_cant": "Universally quantified over data and its ordering.", "anchors": ["src/diffpy/srmise/dataclusters.py:DataClusters.__init__", "src/diffpy/srmise/dataclusters.py:DataClusters.__next__"]}
{"id": "C11", "title": "Cluster slices and the full test are exact", "statement": "cut(k) returns the slice selecting exactly the points of cluster k; cluster_is_full(k) is true exactly when no unclustered point is adjacent to either end of cluster k.", "quantifier": "every well-formed cluster list and every valid k", "why_tests_cant": "All layouts and end conditions (first/last cluster, neighbours touching).", "anchors": ["src/diffpy/srmise/dataclusters.py:DataClusters.cut", "src/diffpy/srmise/dataclusters.py:DataClusters.cluster_is_full"]}
{"id": "C12", "title": "Free-parameter vector round trip", "statement": "Packing the values just unpacked changes nothing; packing a vector of at least the model's free-parameter count and unpacking returns its first values; a NaN anywhere is rejected with nothing changed; a shorter vector is rejected unless exactly one value is left for the last part that has free parameters.", "quantifier": "every model: any number of parts, any parameter counts, any pattern of fixed/free flags", "why_tests_cant": "Sliding a single vector over variable-size parts; off-by-one errors only show for particular shapes.", "anchors": ["src/diffpy/srmise/modelparts.py:ModelParts.pack_freepars", "src/diffpy/srmise/modelparts.py:ModelParts.unpack_freepars", "src/diffpy/srmise/modelparts.py:ModelPart.getfree", "src/diffpy/srmise/modelparts.py:ModelPart.setfree", "src/diffpy/srmise/modelparts.py:ModelPart.compress"]}
{"id": "C13", "title": "Fixed parameters never change under fitting", "statement": "Updating a model's free parameters (the only way fit writes back) leaves every parameter flagged fixed, every free flag, owner and removable flag untouched; after a fit parts outside the model are unchanged, and each part of the model is the normal form of its parameters with only free ones changed.", "quantifier": "every model and every vector of free values", "why_tests_cant": "All flag patterns and sizes.", "anchors": ["src/diffpy/srmise/modelparts.py:ModelParts.pack_freepars", "src/diffpy/srmise/modelparts.py:ModelPart.update", "src/diffpy/srmise/modelparts.py:ModelParts.fit"]}
{"id": "C14", "title": "Parameter counting is consistent", "statement": "npars(count_fixed=True) is the sum of part lengths, npars() without fixed equals the length of the unpacked vector, and free <= total; ModelCluster.npars with and without baseline and external-fixed flags decomposes into these.", "quantifier": "every model", "why_tests_cant": "All shapes of models.", "anchors": ["src/diffpy/srmise/modelparts.py:ModelParts.npars", "src/diffpy/srmise/modelparts.py:ModelPart.npars", "src/diffpy/srmise/modelcluster.py:ModelCluster.npars"]}
{"id": "C15", "title": "Copies are independent", "statement": "copy() of a model (parts list) compares equal to the original, and any later update of one does not affect the other, while the static owner/function objects stay shared.", "quantifier": "every model and every later sequence of in-place updates on either copy", "why_tests_cant": "Aliasing is about all later histories of mutation.", "anchors": ["src/diffpy/srmise/modelparts.py:ModelParts.copy", "src/diffpy/srmise/modelparts.py:ModelPart.copy", "src/diffpy/srmise/modelparts.py:ModelPart.update", "src/diffpy/srmise/modelparts.py:ModelParts.__getitem__"]}
{"id": "C16", "title": "Ownership changes are checked", "statement": "changeowner succeeds exactly when the new owner has the same number of parameters and the part is not static (or the owner is the same object); a rejected change has no effect; evaluating a part with a function that is not its owner is rejected.", "quantifier": "every part and candidate owner", "why_tests_cant": "All combinations of owners.", "anchors": ["src/diffpy/srmise/modelparts.py:ModelPart.changeowner", "src/diffpy/srmise/basefunction.py:BaseFunction.value"]}
{"id": "C17", "title": "Model value is the sum of its parts and zero outside the range", "statement": "The value of a model on a grid equals the pointwise sum of its parts' values; restricting the evaluation range gives the same values inside the range and exactly 0 outside; adding an empty model contributes 0.", "quantifier": "every model, grid and range", "why_tests_cant": "All grids and ranges.", "anchors": ["src/diffpy/srmise/modelparts.py:ModelParts.value", "src/diffpy/srmise/basefunction.py:BaseFunction.value", "src/diffpy/srmise/modelcluster.py:ModelCluster.value"]}
{"id": "C18", "title": "Fit has a well defined outcome", "statement": "ModelParts.fit refuses with a fit error, changing nothing, when there are at least as many free parameters as points, does nothing when there are none, and otherwise either stores the optimiser's answer (converted to normal form) in the free parameters, after a status of 1 to 4 and without NaN, or raises; the cases in which it raises something else than a fit error are exactly listed.", "quantifier": "every model, data set and optimiser behaviour", "why_tests_cant": "The optimiser's behaviour is adversarial; tests only see converging fits.", "anchors": ["src/diffpy/srmise/modelparts.py:ModelParts.fit"]}
{"id": "C19", "title": "Function serialization order is dependency-safe", "statement": "The list of functions written to a file contains every function needed, directly or through base functions, each once, and every function comes after the functions it depends on.", "quantifier": "every finite acyclic dependency graph of functions", "why_tests_cant": "All dependency graphs.", "anchors": ["src/diffpy/srmise/basefunction.py:BaseFunction.safefunctionlist", "src/diffpy/srmise/basefunction.py:BaseFunction.safefunction"]}
{"id": "C20", "title": "Loading by reference index is bounds-checked", "statement": "factory() called with an index outside the supplied list of functions raises the documented ValueError, never another error.", "quantifier": "every index and list length", "why_tests_cant": "Boundary index equal to the length.", "anchors": ["src/diffpy/srmise/basefunction.py:BaseFunction.factory", "src/diffpy/srmise/peaks/base.py:Peak.factory", "src/diffpy/srmise/baselines/base.py:Baseline.factory"]}
{"id": "C21", "title": "Function and part constructors validate their formats", "statement": "Constructing a function accepts exactly: matching format/default names, dictionary values that are the indices 0..n-1; constructing a part accepts exactly parameter and flag vectors of the right length.", "quantifier": "every set of constructor arguments", "why_tests_cant": "All malformed inputs.", "anchors": ["src/diffpy/srmise/basefunction.py:BaseFunction.__init__", "src/diffpy/srmise/modelparts.py:ModelPart.__init__"]}
{"id": "C22", "title": "GaussianOverR normal form preserves the curve", "statement": "Converting internal parameters to their preferred (normal) form never changes the peak's value at any r, always lands in the preferred range (area>=0, width angle in [-pi/2,pi/2]), and is idempotent.", "quantifier": "all real parameters and all r", "why_tests_cant": "Continuum of parameters with several branch cuts.", "anchors": ["src/diffpy/srmise/peaks/gaussianoverr.py:GaussianOverR._transform_parametersraw", "src/diffpy/srmise/peaks/gaussianoverr.py:GaussianOverR._valueraw", "src/diffpy/srmise/peaks/gaussian.py:Gaussian._transform_parametersraw"]}
{"id": "C23", "title": "Peak parameter formats convert back and forth without loss", "statement": "For widths in (0,maxwidth] and area >= 0, converting between position/FWHM/area, position/sigma/area and the internal format and back returns the same values; FWHM = 2 sqrt(2 ln 2) sigma; widths above maxwidth are rejected.", "quantifier": "all reals in the stated domain and every maxwidth>0", "why_tests_cant": "Continuum, branch boundaries.", "anchors": ["src/diffpy/srmise/peaks/gaussianoverr.py:GaussianOverR._transform_parametersraw", "src/diffpy/srmise/peaks/gaussian.py:Gaussian._transform_parametersraw"]}
{"id": "C24", "title": "GaussianOverR Jacobian is the derivative", "statement": "Each component of the analytic Jacobian returned for free parameters is the partial derivative of the peak's value with respect to that parameter, wherever that is differentiable; components of fixed parameters are omitted.", "quantifier": "all real parameters (away from kinks) and all r", "why_tests_cant": "Analytic identity over a continuum.", "anchors": ["src/diffpy/srmise/peaks/gaussianoverr.py:GaussianOverR._jacobianraw", "src/diffpy/srmise/peaks/gaussianoverr.py:GaussianOverR._valueraw"]}
{"id": "C25", "title": "Gaussian Jacobian is usable", "statement": "The Gaussian peak function provides an analytic Jacobian for any pattern of free parameters.", "quantifier": "all parameters and free patterns", "why_tests_cant": "The failing line is reached for every call.", "anchors": ["src/diffpy/srmise/peaks/gaussian.py:Gaussian._jacobianraw"]}
{"id": "C26", "title": "Transform derivatives propagate correctly", "statement": "At every interior point of the domain (positive area, width strictly inside its range) the matrices used to propagate uncertainties between formats are the Jacobian matrices of the corresponding parameter transformations.", "quantifier": "all parameters in the interior of the domain", "why_tests_cant": "Analytic identity over a continuum.", "anchors": ["src/diffpy/srmise/peaks/gaussianoverr.py:GaussianOverR._transform_derivativesraw", "src/diffpy/srmise/peaks/gaussianoverr.py:GaussianOverR._transform_parametersraw"]}
{"id": "C27", "title": "scale_at scales the peak at the point and keeps its maximum", "statement": "When GaussianOverR.scale_at or Gaussian.scale_at returns finite parameters, the new peak's value at x is scale times the old one and its height at the old maximum is unchanged, which is still its maximum exactly as long as the new sigma is below it; which outcome (finite, NaN, refusal) occurs is determined for every peak, x and scale; Peak.scale_at leaves the peak unchanged when it reports failure and changes free parameters only.", "quantifier": "all parameters, x and scale in the admissible domain", "why_tests_cant": "Continuum of inputs.", "anchors": ["src/diffpy/srmise/peaks/gaussianoverr.py:GaussianOverR.scale_at", "src/diffpy/srmise/peaks/base.py:Peak.scale_at"]}
{"id": "C28", "title": "max() locates the maximum", "statement": "For positive positions the (r, value) pair returned by max() is the local maximum of the curve: the value there is the returned height, the curve rises up to it (from its other stationary point) and falls for ever after it; GaussianOverR.max raises exactly when the curve decreases everywhere. Gaussian.max returns the global maximum.", "quantifier": "all peak parameters", "why_tests_cant": "Continuum.", "anchors": ["src/diffpy/srmise/peaks/gaussianoverr.py:GaussianOverR.max", "src/diffpy/srmise/peaks/gaussian.py:Gaussian.max"]}
{"id": "C29", "title": "Width and area parameters mean what they say", "statement": "A Gaussian with position p, FWHM w and area a takes half its maximum exactly at p\u00b1w/2, has height a/(sigma sqrt(2 pi)) and encloses the area a (its integral over the real line is a; so does GaussianOverR times |r|), and every internal width angle gives a FWHM in [0,maxwidth].", "quantifier": "all parameters", "why_tests_cant": "Continuum.", "anchors": ["src/diffpy/srmise/peaks/gaussian.py:Gaussian._valueraw", "src/diffpy/srmise/peaks/gaussianoverr.py:GaussianOverR._valueraw"]}
{"id": "C30", "title": "Polynomial baseline evaluates the stated polynomial", "statement": "Polynomial of degree d with parameters [a_d..a_0] evaluates to the sum of a_k r^k.", "quantifier": "every degree, coefficients and r", "why_tests_cant": "All degrees.", "anchors": ["src/diffpy/srmise/baselines/polynomial.py:Polynomial._valueraw", "src/diffpy/srmise/baselines/polynomial.py:Polynomial._jacobianraw", "src/diffpy/srmise/baselines/polynomial.py:Polynomial.__init__"]}
{"id": "C31", "title": "Nanospherical baseline is consistent", "statement": "For a positive radius the spherical-nanoparticle baseline is continuous, zero outside (0,2R), a negative multiple of r inside scaled by |s|, its Jacobian gives the derivative in the radius, and scalar and array evaluation agree.", "quantifier": "all parameters and r", "why_tests_cant": "Continuum plus domain boundary.", "anchors": ["src/diffpy/srmise/baselines/nanospherical.py:NanoSpherical"]}
{"id": "C32", "title": "Arbitrary baselines have the number of parameters asked for", "statement": "Arbitrary(npars=n) creates a function with n parameters.", "quantifier": "every n", "why_tests_cant": "Off by one for every n.", "anchors": ["src/diffpy/srmise/baselines/arbitrary.py:Arbitrary.__init__"]}
{"id": "C33", "title": "Model comparison is a consistent order", "statement": "For evaluators of one method, the comparison operators on computed models form a total preorder in which lower AIC/AICc is 'greater' (better): exactly one of <, ==, > holds, <= is < or ==, != is the negation of ==, and comparison of different methods or unevaluated models is refused.", "quantifier": "all pairs/triples of evaluated models", "why_tests_cant": "Order laws quantify over all triples.", "anchors": ["src/diffpy/srmise/modelevaluators/base.py:ModelEvaluator"]}
{"id": "C34", "title": "Information criteria have the documented form", "statement": "For a fresh evaluator AIC = chi2 + 2k and AICc = chi2 + 2k + 2k(k+1)/(n-k-1) with n raised to the minimum k+2; negative k is rejected; the penalty is nonnegative and strictly increasing in k, AICc exceeds AIC for k > 0 and decreases towards it with n; the denominator is at least 1.", "quantifier": "all k, kshift, n and chi2", "why_tests_cant": "All sizes.", "anchors": ["src/diffpy/srmise/modelevaluators/aic.py:AIC.evaluate", "src/diffpy/srmise/modelevaluators/aic.py:AIC.parpenalty", "src/diffpy/srmise/modelevaluators/aicc.py:AICc.parpenalty", "src/diffpy/srmise/modelevaluators/aicc.py:AICc.minpoints"]}
{"id": "C35", "title": "growth_justified agrees with the criterion", "statement": "growth_justified(fit,k) is true exactly when adding k parameters could still lower the criterion below its present value even for an otherwise perfect improvement per the documented threshold, and is false whenever too few points support the extra parameters.", "quantifier": "all fits, k", "why_tests_cant": "All sizes.", "anchors": ["src/diffpy/srmise/modelevaluators/aic.py:AIC.growth_justified", "src/diffpy/srmise/modelevaluators/aicc.py:AICc.growth_justified"]}
{"id": "C36", "title": "Akaike weights and probabilities are a distribution", "statement": "Weights lie in (0,1] with the best model having weight 1; probabilities are positive, sum to 1 and are ordered opposite to the criterion; equal criteria give equal probabilities.", "quantifier": "every non-empty list of criteria", "why_tests_cant": "All lists and sizes.", "anchors": ["src/diffpy/srmise/modelevaluators/aic.py:AIC.akaikeweights", "src/diffpy/srmise/modelevaluators/aic.py:AIC.akaikeprobs"]}
{"id": "C37", "title": "A fit never makes a cluster's model worse", "statement": "ModelCluster.fit either returns the quality of the new model, which is not worse than the one before, and keeps the new model (in position order, cleaned), or returns nothing and leaves peaks and baseline as they were (except that a cluster without peaks may keep the one estimated peak); the data and range of the cluster never change.", "quantifier": "every cluster, evaluator and optimiser behaviour, including failures at any stage", "why_tests_cant": "Adversarial optimiser and failure points.", "anchors": ["src/diffpy/srmise/modelcluster.py:ModelCluster.fit"]}
{"id": "C38", "title": "Replacing peaks is all-or-nothing and keeps order", "statement": "replacepeaks removes exactly the selected peaks and inserts the new ones, the result is sorted by position with nothing else lost; if a selected peak is not removable it raises and the model is unchanged; deletepeak with an index in range other than -1 removes exactly that peak.", "quantifier": "every model, new peaks and selection", "why_tests_cant": "All lists and slices.", "anchors": ["src/diffpy/srmise/modelcluster.py:ModelCluster.replacepeaks", "src/diffpy/srmise/modelcluster.py:ModelCluster.deletepeak", "src/diffpy/srmise/peaks/base.py:Peaks.sort"]}
{"id": "C39", "title": "A cluster is marked for fitting exactly when documented", "statement": "Through any history of change_slice calls the slice equals the last one requested and a cluster marked never-fit contains no point whose value above the baseline reaches its uncertainty (no cluster is wrongly skipped); if each slice contains the previous one the mark is set exactly when there is no such point.", "quantifier": "every pair of slices and data", "why_tests_cant": "All slices.", "anchors": ["src/diffpy/srmise/modelcluster.py:ModelCluster.change_slice"]}
{"id": "C40", "title": "cleanfit removes only bad peaks", "statement": "On a model in position order cleanfit removes exactly the peaks with a NaN parameter and the removable peaks that lie before the first or not before the last point of the cluster and stay below the uncertainty at every point of it; all other peaks keep order and parameters and the number removed is reported.", "quantifier": "every model", "why_tests_cant": "All positions, including boundary.", "anchors": ["src/diffpy/srmise/modelcluster.py:ModelCluster.cleanfit"]}
{"id": "C41", "title": "Joining adjacent clusters loses no data and is symmetric", "statement": "join_adjacent(a,b) covers exactly the union of the two slices, contains all peaks of both except duplicates at the border, in position order, is independent of argument order, and rejects clusters that do not touch or do not share data, method and baseline.", "quantifier": "every pair of adjacent clusters", "why_tests_cant": "All models.", "anchors": ["src/diffpy/srmise/modelcluster.py:ModelCluster.join_adjacent"]}
{"id": "C42", "title": "Pruning respects constraints", "statement": "prune always terminates, removes only removable peaks as long as fits produce no NaN, never adds a peak, and returns normally when all peaks are removable.", "quantifier": "every model, optimiser and evaluator", "why_tests_cant": "All execution paths.", "anchors": ["src/diffpy/srmise/modelcluster.py:ModelCluster.prune"]}
{"id": "C43", "title": "Scaling a group of peaks is atomic", "statement": "Peaks.match_at(x,y) leaves all peaks unchanged when it returns False; when every peak accepts the common factor all are rescaled so that the sum is y at x and it returns True; when it returns True some peak was rescaled by one common factor and the sum is y or falls short in the stated way; reduce_to leaves the cluster unchanged unless it reports a quality.", "quantifier": "every peak list, x and y", "why_tests_cant": "Failure in the middle of the list.", "anchors": ["src/diffpy/srmise/peaks/base.py:Peaks.match_at", "src/diffpy/srmise/modelcluster.py:ModelCluster.reduce_to"]}
{"id": "C44", "title": "The covariance attached to a model is faithful", "statement": "Setting the covariance of the free parameters on a new or cleared object produces a full matrix with zero rows and columns for the fixed ones, keeps every entry, symmetry and positive semidefiniteness; a matrix of the wrong shape is rejected with nothing changed; getvalue, getuncertainty, getcovariance and get answer for the parameter named, whether by number or by (part, parameter), and refuse other names; correlations lie in [-1,1], are symmetric, 1 on the diagonal and 0 for fixed parameters; correlationwarning lists exactly the pairs above the threshold, each once.", "quantifier": "every model shape, matrix and pattern of fixed parameters", "why_tests_cant": "All shapes.", "anchors": ["src/diffpy/srmise/modelcluster.py:ModelCovariance.setcovariance", "src/diffpy/srmise/modelcluster.py:ModelCovariance.getcovariance", "src/diffpy/srmise/modelcluster.py:ModelCovariance.getcorrelation", "src/diffpy/srmise/modelcluster.py:ModelCovariance.correlationwarning"]}
{"id": "C45", "title": "Contingent fits happen only on sufficient growth", "statement": "contingent_fit fits exactly when the cluster is unfit-able flag permits and its size grew by the stated factor since the last fit.", "quantifier": "all cluster histories", "why_tests_cant": "All histories of growth.", "anchors": ["src/diffpy/srmise/modelcluster.py:ModelCluster.contingent_fit"]}
{"id": "C46", "title": "Range selection picks exactly the points in range", "statement": "For a nonempty sorted grid and a range that meets its span, getrangeslice() selects exactly the data points with rng[0] <= x <= rng[1].", "quantifier": "every sorted x and range", "why_tests_cant": "All boundary alignments.", "anchors": ["src/diffpy/srmise/peakextraction.py:PeakExtraction.getrangeslice"]}
{"id": "C47", "title": "Setting extraction variables is validated", "statement": "setvars with an unknown variable name raises ValueError; known ones are stored and others untouched; clearing resets to the initial state.", "quantifier": "every history of settings", "why_tests_cant": "All histories.", "anchors": ["src/diffpy/srmise/peakextraction.py:PeakExtraction.setvars", "src/diffpy/srmise/peakextraction.py:PeakExtraction.clear", "src/diffpy/srmise/pdfpeakextraction.py:PDFPeakExtraction.setvars"]}
{"id": "C48", "title": "Default values never override explicit settings", "statement": "defaultvars assigns documented defaults to unset variables only, makes range end points concrete, and after it every required variable is set; repeating it changes nothing.", "quantifier": "every subset of settings", "why_tests_cant": "All subsets.", "anchors": ["src/diffpy/srmise/peakextraction.py:PeakExtraction.defaultvars", "src/diffpy/srmise/pdfpeakextraction.py:PDFPeakExtraction.defaultvars"]}
{"id": "C49", "title": "Extraction keeps models and clusters in step and finishes", "statement": "During extraction the list of cluster models always matches the list of data clusters one to one with equal ranges; at most three clusters ever become mutually adjacent in a step; when clustering is exhausted exactly one model remains that covers the whole range.", "quantifier": "every data set, every resolution and every fitting outcome", "why_tests_cant": "Loop invariant over all executions.", "anchors": ["src/diffpy/srmise/peakextraction.py:PeakExtraction.extract_single"]}
{"id": "C50", "title": "Recursive extraction terminates", "statement": "The recursive re-extraction never nests deeper than three levels, and every loop of it ends.", "quantifier": "every execution", "why_tests_cant": "All executions.", "anchors": ["src/diffpy/srmise/peakextraction.py:PeakExtraction.extract_single"]}
{"id": "C51", "title": "Resampling keeps the sampled data", "statement": "resample(orig_r,orig_y,new_r) on a uniform grid reproduces the original values at original grid points and has the length of new_r; resampledata returns arrays of one length on a grid of spacing dr inside the data and the range, with uncertainties never below the smallest given one.", "quantifier": "every uniform grid, sequence, new grid, range and spacing", "why_tests_cant": "All grids.", "anchors": ["src/diffpy/srmise/pdfpeakextraction.py:resample"]}
{"id": "C52", "title": "Error scale never shrinks uncertainties", "statement": "errorscale() >= 1 for all settings, and equals 1 unless the grid is oversampled.", "quantifier": "all settings", "why_tests_cant": "Continuum.", "anchors": ["src/diffpy/srmise/pdfpeakextraction.py:PDFPeakExtraction.errorscale"]}
{"id": "C53", "title": "Running-variance statistic is exact", "statement": "stdratio computes, for each prefix, the ratio of the standard deviations of the two adjacent windows as documented.", "quantifier": "every sequence of length >= 4", "why_tests_cant": "All lengths; online updates.", "anchors": ["src/diffpy/srmise/pdfpeakextraction.py:stdratio"]}
{"id": "C54", "title": "Nyquist refinement loop terminates", "statement": "extract() with nyquist resampling always terminates: each iteration either stops or moves to a strictly coarser admissible grid bounded by the Nyquist limit.", "quantifier": "all free-parameter outcomes", "why_tests_cant": "Termination for adversarial fits.", "anchors": ["src/diffpy/srmise/pdfpeakextraction.py:PDFPeakExtraction.extract"]}
{"id": "C55", "title": "Uncertainties are accepted all or nothing", "statement": "Reading a PDF data set either raises the documented format error or stores r and G of equal length (one value per data line); uncertainties are used only if every value is positive and not recognised as NaN or infinite, otherwise they are all zero of the same length; well-formed files are accepted and files with a missing or unreadable r or G are rejected.", "quantifier": "every data file", "why_tests_cant": "All data.", "anchors": ["src/diffpy/srmise/pdfdataset.py:PDFDataSet.readStr"]}
{"id": "C56", "title": "Data set copies are complete", "statement": "copy() of a data set into a new or a different data set has the same observed data, variables and metadata, leaves the source unchanged, and neither object is affected by later clear, setvar, readStr, copy or metadata operations on the other.", "quantifier": "every data set and later mutation", "why_tests_cant": "All histories.", "anchors": ["src/diffpy/srmise/pdfdataset.py:PDFDataSet.copy"]}
{"id": "C57", "title": "Model classes partition the models", "statement": "classify puts every model in exactly one class, represented by its exemplar, and two models in different classes' exemplars differ by more than the tolerance.", "quantifier": "every set of models and tolerance", "why_tests_cant": "All sets.", "anchors": ["src/diffpy/srmise/multimodelselection.py:MultimodelSelection.classify"]}
{"id": "C58", "title": "Best-model queries return true maxima", "statement": "get_model/get_class/bestmodels/bestclasses/maxprob queries return the documented n-th best by probability for the given uncertainty.", "quantifier": "every table of probabilities", "why_tests_cant": "All tables.", "anchors": ["src/diffpy/srmise/multimodelselection.py:MultimodelSelection.bestmodels", "src/diffpy/srmise/multimodelselection.py:MultimodelSelection.get_model", "src/diffpy/srmise/multimodelselection.py:MultimodelSelection.maxprobdG_bymodel"]}
{"id": "C59", "title": "Uncertainty lookup returns the nearest key", "statement": "dg_key(dg) returns the stored uncertainty nearest to dg.", "quantifier": "every key list and value", "why_tests_cant": "All lists.", "anchors": ["src/diffpy/srmise/multimodelselection.py:MultimodelSelection.dg_key"]}
{"id": "C60", "title": "Rescaling the criterion equals recomputation", "statement": "The AIC computed by rescaling chi2 by (dg0/dg)^2 equals the AIC computed from residuals scaled with dg directly.", "quantifier": "every residual, dg0, dg", "why_tests_cant": "All data.", "anchors": ["src/diffpy/srmise/multimodelselection.py:MultimodelSelection.makeaics"]}
{"id": "C61", "title": "Per-class best uncertainties honour the argument", "statement": "classbestdgs and modelbestdgs consider exactly the uncertainties passed in.", "quantifier": "every argument", "why_tests_cant": "All arguments.", "anchors": ["src/diffpy/srmise/multimodelselection.py:MultimodelSelection.classbestdgs", "src/diffpy/srmise/multimodelselection.py:MultimodelSelection.modelbestdgs"]}
{"id": "C62", "title": "Generic accessor serves every documented key", "statement": "get(dg, *keys) accepts each documented key and returns the corresponding accessor's result.", "quantifier": "every documented key", "why_tests_cant": "Dispatch table.", "anchors": ["src/diffpy/srmise/multimodelselection.py:MultimodelSelection.get"]}
{"id": "C63", "title": "Trace counters nest correctly", "statement": "Balanced push/pop restores the tracer's levels; successive traces of an outermost operation have consecutive counters starting at 0, and each carries the recursion level of the moment it was emitted.", "quantifier": "every balanced sequence of operations", "why_tests_cant": "All histories.", "anchors": ["src/diffpy/srmise/srmiselog.py:TracePeaks.pushr", "src/diffpy/srmise/srmiselog.py:TracePeaks.popr", "src/diffpy/srmise/srmiselog.py:TracePeaks.pushc", "src/diffpy/srmise/srmiselog.py:TracePeaks.popc", "src/diffpy/srmise/srmiselog.py:TracePeaks.maketrace"]}
{"id": "C64", "title": "Traces read back as written", "statement": "readstr(writestr(trace)) gives the cluster, the ranges, the recursion level and the counter of the written trace, and read() does so from a written file.", "quantifier": "every trace", "why_tests_cant": "All values.", "anchors": ["src/diffpy/srmise/srmiselog.py:TracePeaks.readstr", "src/diffpy/srmise/srmiselog.py:TracePeaks.writestr"]}
{"id": "C65", "title": "Stability results follow the selected uncertainty", "statement": "run(errors) stores one result per uncertainty, in order: the uncertainty, the model and the grid spacing its extraction gave, different results in separate model objects, and as baseline either one of its own or the extracter's baseline object as the last extraction has left it. When extraction leaves the extracter's baseline alone and gives models with a baseline of their own (C215), every result is exactly what extraction with its uncertainty gives at any time. setcurrent(i) with an index in range installs the i-th result's model, baseline and uncertainty on the resampled data and leaves the stored results unchanged; setcurrent(None) clears the current model.", "quantifier": "every run and index", "why_tests_cant": "All histories.", "anchors": ["src/diffpy/srmise/peakstability.py:PeakStability.setcurrent", "src/diffpy/srmise/peakstability.py:PeakStability.run"]}
{"id": "C66", "title": "Augmenting adds only improving source peaks", "statement": "augment(source) always terminates; on normal return the model consists (up to fitted parameters) of own and source peaks on the same data; it returns normally when no peak is protected.", "quantifier": "every model, source model, optimiser and statistic", "why_tests_cant": "All optimiser behaviours.", "anchors": ["src/diffpy/srmise/modelcluster.py:ModelCluster.augment", "src/diffpy/srmise/modelcluster.py:ModelCluster.replacepeaks"]}
{"id": "C67", "title": "PdfFit variables are stored and returned exactly", "statement": "setvar accepts exactly qdamp, qbroad and dscale, changes only that variable of that data set, and getvar returns what was set; any other name or a non-number is rejected with nothing changed.", "quantifier": "every data set, variable name and value", "why_tests_cant": "All names and values.", "anchors": ["src/diffpy/srmise/pdfdataset.py:PDFDataSet.setvar", "src/diffpy/srmise/pdfdataset.py:PDFDataSet.getvar"]}
{"id": "C68", "title": "A trace is a snapshot of the whole model", "statement": "Every emitted trace covers the whole data range and holds exactly the peaks of all clusters, in position order, with the first cluster's baseline and data; emitting changes none of them; a trace of one cluster is not affected by later changes of the cluster.", "quantifier": "every list of clusters and later in-place change", "why_tests_cant": "All models and histories; aliasing.", "anchors": ["src/diffpy/srmise/srmiselog.py:TracePeaks.emit", "src/diffpy/srmise/srmiselog.py:TracePeaks.maketrace"]}
{"id": "C69", "title": "Protected initial peaks survive extraction", "statement": "Initial peaks marked as not removable are in the extracted model (possibly refined), provided the fit never produces NaN parameters.", "quantifier": "every data set, every list of initial peaks, every fitting outcome without NaN", "why_tests_cant": "All executions of the extraction loop, pruning and final fit.", "anchors": ["src/diffpy/srmise/peakextraction.py:PeakExtraction.extract_single", "src/diffpy/srmise/modelcluster.py:ModelCluster.prune", "src/diffpy/srmise/modelcluster.py:ModelCluster.addexternalpeaks"]}
{"id": "C70", "title": "Format changes propagate the covariance", "statement": "For parts whose function provides a symmetric gradient matrix, in particular GaussianOverR peaks, and for parts that cannot be converted at all (baselines), ModelCovariance.transform converts the parameters of the selected parts and turns the covariance into J C J^T, J being the true derivatives of the converted parameters (identity for parts left alone).", "quantifier": "every model, covariance matrix, pair of formats and selection of parts", "why_tests_cant": "All shapes and parameter values; the derivatives must be the true ones.", "anchors": ["src/diffpy/srmise/modelcluster.py:ModelCovariance.transform", "src/diffpy/srmise/peaks/gaussianoverr.py:GaussianOverR._transform_derivativesraw"]}
{"id": "C71", "title": "Adjacency query works for every layout", "statement": "find_adjacent_clusters() returns normally for every cluster list.", "quantifier": "every well-formed cluster list", "why_tests_cant": "Only layouts with runs of different lengths fail.", "anchors": ["src/diffpy/srmise/dataclusters.py:DataClusters.find_adjacent_clusters"]}
{"id": "C72", "title": "Rejected combine requests have no effect", "statement": "A combine request that is rejected leaves the clusters unchanged, and requests that do not list neighbouring clusters in increasing order are rejected.", "quantifier": "every cluster list and request", "why_tests_cant": "All requests.", "anchors": ["src/diffpy/srmise/dataclusters.py:DataClusters.combine_clusters"]}
{"id": "C73", "title": "Too short parameter vectors are rejected", "statement": "Packing a vector shorter than the number of free parameters raises.", "quantifier": "every model and vector", "why_tests_cant": "Fails for particular shapes only.", "anchors": ["src/diffpy/srmise/modelparts.py:ModelParts.pack_freepars"]}
{"id": "C74", "title": "Fixed parameters keep their exact value in a fit", "statement": "A successful fit leaves every fixed parameter at exactly its value.", "quantifier": "every model and optimiser behaviour", "why_tests_cant": "All parameter values, including those not in normal form.", "anchors": ["src/diffpy/srmise/modelparts.py:ModelParts.fit"]}
{"id": "C75", "title": "A fit fails only with the documented error", "statement": "ModelParts.fit raises nothing but the fit error.", "quantifier": "every model and optimiser behaviour", "why_tests_cant": "Adversarial optimiser.", "anchors": ["src/diffpy/srmise/modelparts.py:ModelParts.fit"]}
{"id": "C76", "title": "Negative widths are rejected", "statement": "Converting a peak with a negative width to the internal format raises.", "quantifier": "all parameters", "why_tests_cant": "Continuum.", "anchors": ["src/diffpy/srmise/peaks/gaussianoverr.py:GaussianOverR._transform_parametersraw"]}
{"id": "C77", "title": "Transform derivatives hold for any sign of the area", "statement": "The transformation matrices are the Jacobians also for internal parameters with negative area.", "quantifier": "all parameters", "why_tests_cant": "Continuum.", "anchors": ["src/diffpy/srmise/peaks/gaussianoverr.py:GaussianOverR._transform_derivativesraw"]}
{"id": "C78", "title": "Successful scaling gives a usable peak", "statement": "Whenever scale_at reports success the parameters are finite and the maximum has not moved.", "quantifier": "all parameters, x and scale", "why_tests_cant": "Continuum of inputs.", "anchors": ["src/diffpy/srmise/peaks/gaussianoverr.py:GaussianOverR.scale_at", "src/diffpy/srmise/peaks/gaussian.py:Gaussian.scale_at"]}
{"id": "C79", "title": "max() for peaks at negative positions", "statement": "GaussianOverR.max returns a local maximum also for a peak at a negative position.", "quantifier": "all parameters", "why_tests_cant": "Continuum.", "anchors": ["src/diffpy/srmise/peaks/gaussianoverr.py:GaussianOverR.max"]}
{"id": "C80", "title": "Polynomial Jacobian", "statement": "The Jacobian of a polynomial baseline gives the derivative with respect to each free coefficient.", "quantifier": "every degree, coefficients, r and free pattern", "why_tests_cant": "All degrees.", "anchors": ["src/diffpy/srmise/baselines/polynomial.py:Polynomial._jacobianraw"]}
{"id": "C81", "title": "Nanospherical scale derivative and normal form", "statement": "The Jacobian of the nanospherical baseline gives the derivative in the scale, and the normal form of its parameters describes the same curve.", "quantifier": "all parameters and r", "why_tests_cant": "Continuum.", "anchors": ["src/diffpy/srmise/baselines/nanospherical.py:NanoSpherical._jacobianraw", "src/diffpy/srmise/baselines/nanospherical.py:NanoSpherical._transform_parametersraw"]}
{"id": "C82", "title": "Evaluators can be reused", "statement": "An evaluator that has evaluated one fit gives the right criterion for the next.", "quantifier": "all sequences of fits", "why_tests_cant": "All histories.", "anchors": ["src/diffpy/srmise/modelevaluators/aic.py:AIC.evaluate"]}
{"id": "C83", "title": "Failed fits leave shared objects alone", "statement": "A fit that is undone leaves the peak and baseline objects held by other clusters unchanged.", "quantifier": "every cluster, optimiser and sharing", "why_tests_cant": "Aliasing.", "anchors": ["src/diffpy/srmise/modelcluster.py:ModelCluster.fit", "src/diffpy/srmise/modelcluster.py:ModelCluster.join_adjacent"]}
{"id": "C84", "title": "deletepeak accepts every Python index", "statement": "deletepeak(i) deletes peak i for every valid index, including -1, and raises for others.", "quantifier": "every model and index", "why_tests_cant": "Boundary index.", "anchors": ["src/diffpy/srmise/modelcluster.py:ModelCluster.deletepeak"]}
{"id": "C85", "title": "Joining removes misplaced peaks", "statement": "join_adjacent removes peaks that are out of order and on the wrong side of the border.", "quantifier": "every pair of clusters", "why_tests_cant": "All models.", "anchors": ["src/diffpy/srmise/modelcluster.py:ModelCluster.join_adjacent"]}
{"id": "C86", "title": "Pruning never ends worse and always returns", "statement": "prune never ends with a worse quality than it started with, returns normally for every model and keeps protected peaks whatever the fit produces.", "quantifier": "every model, optimiser and evaluator", "why_tests_cant": "All execution paths.", "anchors": ["src/diffpy/srmise/modelcluster.py:ModelCluster.prune"]}
{"id": "C87", "title": "match_at's True means matched", "statement": "When Peaks.match_at returns True the sum of the peaks at x is y, using a second attempt for any number of peaks.", "quantifier": "every peak list, x and y", "why_tests_cant": "All lists.", "anchors": ["src/diffpy/srmise/peaks/base.py:Peaks.match_at"]}
{"id": "C88", "title": "Range selection outside the data", "statement": "A range that contains no data point selects nothing, without raising.", "quantifier": "every sorted x and range", "why_tests_cant": "Boundary cases.", "anchors": ["src/diffpy/srmise/peakextraction.py:PeakExtraction.getrangeslice"]}
{"id": "C89", "title": "Reading a data set is safe", "statement": "Accepted uncertainties are finite, and a failed read leaves the data set as it was.", "quantifier": "every data file", "why_tests_cant": "All inputs.", "anchors": ["src/diffpy/srmise/pdfdataset.py:PDFDataSet.readStr"]}
{"id": "C90", "title": "Every attribute of a data set is copied", "statement": "copy() also copies spdiameter, copying to itself is harmless, and in-place edits of one copy do not reach the other.", "quantifier": "every data set", "why_tests_cant": "Aliasing and rarely used attributes.", "anchors": ["src/diffpy/srmise/pdfdataset.py:PDFDataSet.copy"]}
{"id": "C91", "title": "Each traced operation starts afresh", "statement": "An outermost operation starts with an empty memory and counter 0, also after one that ended by an exception.", "quantifier": "every history", "why_tests_cant": "All histories.", "anchors": ["src/diffpy/srmise/srmiselog.py:TracePeaks.pushc", "src/diffpy/srmise/srmiselog.py:TracePeaks.popc"]}
{"id": "C92", "title": "Stored stability results are immutable", "statement": "setcurrent with an index out of range changes nothing, and using the installed model does not change the stored results.", "quantifier": "every run, index and later use", "why_tests_cant": "Aliasing.", "anchors": ["src/diffpy/srmise/peakstability.py:PeakStability.setcurrent"]}
{"id": "C93", "title": "Augmenting works with protected peaks and never worsens", "statement": "augment never ends with a worse quality than it started with, and clusters with protected peaks can be augmented like any other.", "quantifier": "every model, source, optimiser and statistic", "why_tests_cant": "All execution paths.", "anchors": ["src/diffpy/srmise/modelcluster.py:ModelCluster.augment"]}
{"id": "C94", "title": "Traces of several clusters are snapshots", "statement": "Later changes of the clusters do not change a trace made from them.", "quantifier": "every list of clusters", "why_tests_cant": "Aliasing.", "anchors": ["src/diffpy/srmise/srmiselog.py:TracePeaks.maketrace"]}
{"id": "C95", "title": "Covariance conversion for every function and selection", "statement": "transform propagates the covariance for Gaussian peaks too, accepts parts=\"baseline\", handles parts without parameters, non-symmetric gradients, and changes nothing when it raises.", "quantifier": "every model and selection", "why_tests_cant": "All shapes.", "anchors": ["src/diffpy/srmise/modelcluster.py:ModelCovariance.transform"]}
{"id": "C96", "title": "Combining clusters reconsiders only the peaks at the border", "statement": "When the extraction combines two clusters, or recurses at an end of the data, at most two peaks (the last left of the border and the first at or right of it) are reconsidered; all other peaks of the cluster enter the final fit unchanged, none lost and none counted twice, and no other cluster is touched.", "quantifier": "every pair of clusters, model, border and outcome of the nested extraction", "why_tests_cant": "All models and execution paths.", "anchors": ["src/diffpy/srmise/peakextraction.py:PeakExtraction.extract_single"]}
{"id": "C97", "title": "The refitted range is the interpeak range", "statement": "The data passed to the nested extraction are exactly those between the next-nearest peaks on either side (or the end of the cluster), up to one extra point on the left and two on the right.", "quantifier": "every increasing x, model and border", "why_tests_cant": "All data and boundary cases.", "anchors": ["src/diffpy/srmise/peakextraction.py:PeakExtraction.extract_single"]}
{"id": "C98", "title": "The extended grid contains the requested grid", "statement": "Extending a uniform grid for the evaluation of termination ripples gives a uniform grid of the same step which contains the requested points exactly at the returned slice, reaches the extension length beyond the last point and before the first (stopping before r=0), and no further than one more step.", "quantifier": "every uniform grid with positive step, every qmax and extension", "why_tests_cant": "A statement about all real grids; floor/ceil boundary cases.", "anchors": ["src/diffpy/srmise/peaks/terminationripples.py:TerminationRipples.extend_grid"]}
{"id": "C99", "title": "The frequency cut is an exact low-pass projection", "statement": "Cutting frequencies keeps the length of the signal, is linear, gives a real result, and on signals of power-of-two length keeps exactly the Fourier components below qmax(N-1)/N unchanged and removes all others; band-limited signals are unchanged and cutting twice is cutting once.", "quantifier": "every signal, step and qmax", "why_tests_cant": "All signals of all lengths over the reals.", "anchors": ["src/diffpy/srmise/peaks/terminationripples.py:TerminationRipples.cut_freq"]}
{"id": "C100", "title": "Rippled values are the cut of the peak on a fine enough grid", "statement": "On a uniform grid the rippled value at every requested point is the band-limited version of the base function sampled on a grid that contains the requested points, with the coarsest subdivision at least as fine as 2 pi/(supersample qmax); points outside the range are zero, and the base function is never sampled at r<=0 except at the first requested point.", "quantifier": "every uniform grid, range, base function, qmax, extension and supersample", "why_tests_cant": "All grids and functions.", "anchors": ["src/diffpy/srmise/peaks/terminationripples.py:TerminationRipples.value", "src/diffpy/srmise/peaks/terminationripples.py:TerminationRipples.extend_grid", "src/diffpy/srmise/peaks/terminationripples.py:TerminationRipples.cut_freq"]}
{"id": "C101", "title": "The rippled Jacobian is the derivative of the rippled value", "statement": "On grids at least as fine as 2 pi/(supersample qmax), if the base function's Jacobian is the derivative of the base function's value, the rippled Jacobian is the derivative of the rippled value at every point; in particular for Gaussian over r.", "quantifier": "every fine uniform grid, range, parameters and free flags", "why_tests_cant": "Derivatives over all real parameters.", "anchors": ["src/diffpy/srmise/peaks/terminationripples.py:TerminationRipples.jacobian", "src/diffpy/srmise/peaks/terminationripples.py:TerminationRipples.value"]}
{"id": "C102", "title": "The rippled Jacobian belongs to the rippled value on every grid", "statement": "Value and Jacobian of a peak with termination ripples are computed from the same sampling on every grid, and both accept single numbers and length-one arrays.", "quantifier": "every grid with two or more points, single points", "why_tests_cant": "Needs a statement about all coarse grids.", "anchors": ["src/diffpy/srmise/peaks/terminationripples.py:TerminationRipples.jacobian", "src/diffpy/srmise/peaks/terminationripples.py:TerminationRipples.value"]}
{"id": "C103", "title": "Coordinate queries inside the data", "statement": "For a coordinate after data point i-1 and up to data point i, find_nearest_cluster2 answers exactly as find_nearest_cluster does for data point i.", "quantifier": "every clustering state and every coordinate inside the data", "why_tests_cant": "All coordinates and states.", "anchors": ["src/diffpy/srmise/dataclusters.py:DataClusters.find_nearest_cluster2"]}
{"id": "C104", "title": "What a reference index selects", "statement": "Loading a function by reference gives entry idx for 0<=idx<n, counts from the end for -n<=idx<0, and otherwise raises (ValueError above n, IndexError at n and below -n).", "quantifier": "every index and list", "why_tests_cant": "All indices.", "anchors": ["src/diffpy/srmise/basefunction.py:BaseFunction.factory"]}
{"id": "C105", "title": "Arbitrary baselines delegate their Jacobian", "statement": "With a Jacobian function of the user, the Jacobian of an Arbitrary baseline is that function's result whenever the numbers of parameters and flags are right, and ValueError otherwise; a negative number of parameters is rejected.", "quantifier": "every function, parameters and flags", "why_tests_cant": "All inputs.", "anchors": ["src/diffpy/srmise/baselines/arbitrary.py:Arbitrary._jacobianraw", "src/diffpy/srmise/baselines/arbitrary.py:Arbitrary.__init__"]}
{"id": "C106", "title": "The Nyquist refinement terminates for small baselines", "statement": "When the baseline has fewer free parameters than there are Nyquist intervals in the range, the refinement ends after at most as many rounds as there were free parameters; the grids used get strictly coarser, none is coarser than the Nyquist limit, and the last is the Nyquist grid or just resolves the remaining free parameters; peaks are only removed.", "quantifier": "every initial model, fit outcome and statistic", "why_tests_cant": "Termination for adversarial fits.", "anchors": ["src/diffpy/srmise/pdfpeakextraction.py:PDFPeakExtraction.extract"]}
{"id": "C107", "title": "Per-class best uncertainties by default", "statement": "Without an argument classbestdgs and modelbestdgs return exactly the uncertainties for which that class or model is the best one.", "quantifier": "every prepared analysis, class and model", "why_tests_cant": "All tables.", "anchors": ["src/diffpy/srmise/multimodelselection.py:MultimodelSelection.classbestdgs", "src/diffpy/srmise/multimodelselection.py:MultimodelSelection.modelbestdgs"]}
{"id": "C108", "title": "Generic accessor agrees with the specific ones", "statement": "get() with the keys aic, class, model, nfree and prob returns what the accessor of that name returns for the same uncertainty and keywords, raises when that raises, and serves several keys left to right.", "quantifier": "every analysis, uncertainty, keyword set and key list", "why_tests_cant": "All key lists.", "anchors": ["src/diffpy/srmise/multimodelselection.py:MultimodelSelection.get"]}
{"id": "C109", "title": "Traces keep their model and ranges through text", "statement": "Reading a written trace gives its model and its clusters; the counters are those of the reading tracer. Violated for every trace with the evaluators supplied, because the text of its model cannot be read (C126); it holds once that text can be read.", "quantifier": "every trace whose model text and cluster text read back", "why_tests_cant": "All traces.", "anchors": ["src/diffpy/srmise/srmiselog.py:TracePeaks.readstr", "src/diffpy/srmise/srmiselog.py:TracePeaks.writestr"]}
{"id": "C110", "title": "Pruning never ends worse unless a fit is undone", "statement": "If no fit on the way is undone, prune ends with a quality that is not worse than the quality it started with.", "quantifier": "every model, optimiser and statistic that prefers fewer parameters at equal residuals", "why_tests_cant": "All execution paths.", "anchors": ["src/diffpy/srmise/modelcluster.py:ModelCluster.prune"]}
{"id": "C111", "title": "Augmenting never ends worse unless a fit is undone", "statement": "If no fit on the way is undone or loses all peaks, augment ends with a quality that is not worse than the quality it started with.", "quantifier": "every model, source, optimiser and statistic", "why_tests_cant": "All execution paths.", "anchors": ["src/diffpy/srmise/modelcluster.py:ModelCluster.augment"]}
{"id": "C112", "title": "Uncertainties read are usable", "statement": "If every spelling of infinity is caught by the inf/nan pattern, the uncertainties after reading are all finite and positive, or all zero when a column is missing or unusable.", "quantifier": "every data file", "why_tests_cant": "All inputs.", "anchors": ["src/diffpy/srmise/pdfdataset.py:PDFDataSet.readStr"]}
{"id": "C113", "title": "Nanospherical baseline for positive parameters", "statement": "For positive scale and radius the Jacobian gives the derivative in the scale; for radius >= 0 the normal form has non-negative parameters, describes the same curve and is stable.", "quantifier": "all such parameters and r", "why_tests_cant": "Continuum.", "anchors": ["src/diffpy/srmise/baselines/nanospherical.py:NanoSpherical._jacobianraw", "src/diffpy/srmise/baselines/nanospherical.py:NanoSpherical._transform_parametersraw"]}
{"id": "C114", "title": "Results appear only on success", "statement": "extract() and fit() leave `extracted` and `extraction_type` unset whenever they raise; when they return, `extraction_type` is \"extract\" or \"fit\" and `extracted` is a model. A previous result never survives a failed run, and the settings other than peaks and baseline are not changed.", "quantifier": "every object, data, setting, fit and estimation outcome", "why_tests_cant": "Every failure point.", "anchors": ["src/diffpy/srmise/pdfpeakextraction.py:PDFPeakExtraction.extract", "src/diffpy/srmise/pdfpeakextraction.py:PDFPeakExtraction.fit", "src/diffpy/srmise/peakextraction.py:PeakExtraction.clearcalc"]}
{"id": "C115", "title": "Working grids", "statement": "For increasing data with two points in the range and qmax >= 0, the grids extract() and fit() work on are non-empty, strictly increasing, inside the range and have as many values and uncertainties as points; without qmax they are exactly the data points in the range with their own values and uncertainties; with qmax the extraction grid of evenly spaced data has at least `supersample` points per Nyquist interval and that of fit() with nyquist=True is spaced by exactly the Nyquist interval.", "quantifier": "all such data, ranges, qmax, supersample and nyquist", "why_tests_cant": "All real data.", "anchors": ["src/diffpy/srmise/pdfpeakextraction.py:PDFPeakExtraction.extract", "src/diffpy/srmise/pdfpeakextraction.py:PDFPeakExtraction.fit"]}
{"id": "C116", "title": "The extracted model covers the chosen grid", "statement": "When extract() returns, the model spans all of one grid with its uncertainties (and values): the extraction grid without qmax or without nyquist, otherwise a grid resampled at the Nyquist interval or finer, exactly Nyquist if the initial model has few enough free parameters; its peaks come from the initially extracted ones by fits and removal of removable peaks, unless all of them were removed on the way.", "quantifier": "every data set, setting, optimiser, estimate and statistic", "why_tests_cant": "Unbounded pipelines of fits.", "anchors": ["src/diffpy/srmise/pdfpeakextraction.py:PDFPeakExtraction.extract"]}
{"id": "C117", "title": "Termination ripples for every peak that allows them", "statement": "With qmax > 0, unless all peaks found were removed, every peak of the result carries termination ripples, except peaks with a static function, which keep theirs; peaks which already had ripples are not wrapped again.", "quantifier": "every data set, setting, optimiser, estimate and statistic", "why_tests_cant": "Unbounded pipelines of fits.", "anchors": ["src/diffpy/srmise/pdfpeakextraction.py:PDFPeakExtraction.extract", "src/diffpy/srmise/modelparts.py:ModelPart.changeowner"]}
{"id": "C118", "title": "Protected initial peaks survive the whole extraction", "statement": "Every initial peak that may not be removed is in the final result (possibly refined, with its function wrapped in termination ripples if qmax > 0) as long as fits produce no NaN.", "quantifier": "every data set, setting, set of initial peaks, optimiser, estimate and statistic", "why_tests_cant": "Unbounded pipelines of fits.", "anchors": ["src/diffpy/srmise/pdfpeakextraction.py:PDFPeakExtraction.extract", "src/diffpy/srmise/peakextraction.py:PeakExtraction.extract_single"]}
{"id": "C119", "title": "fit() only refines the initial peaks", "statement": "When fit() returns, the result spans the whole fit grid with its values and uncertainties, its peaks are initial peaks (refined), none is added, and it is the initial model itself or not worse than it.", "quantifier": "every data set, initial peaks, baseline and optimiser", "why_tests_cant": "All optimiser behaviours.", "anchors": ["src/diffpy/srmise/pdfpeakextraction.py:PDFPeakExtraction.fit", "src/diffpy/srmise/peakextraction.py:PeakExtraction.fit_single"]}
{"id": "C120", "title": "fit() leaves the user's initial peaks and baseline alone", "statement": "initial_peaks and baseline are inputs: fit() does not change them, in particular not when the fit fails. Violated: the nested object and the cluster share them, and a fit that is undone leaves its values in them.", "quantifier": "every data set and optimiser", "why_tests_cant": "Aliasing.", "anchors": ["src/diffpy/srmise/pdfpeakextraction.py:PDFPeakExtraction.fit", "src/diffpy/srmise/peakextraction.py:PeakExtraction.fit_single", "src/diffpy/srmise/modelcluster.py:ModelCluster.fit"]}
{"id": "C121", "title": "Every non-static peak of a result with qmax has ripples", "statement": "With qmax > 0 all peaks of the result that allow it carry termination ripples. Violated: when every peak is pruned the final fit estimates a new peak from the plain peak function.", "quantifier": "every data set and optimiser", "why_tests_cant": "Rare paths.", "anchors": ["src/diffpy/srmise/pdfpeakextraction.py:PDFPeakExtraction.extract"]}
{"id": "C122", "title": "A function survives its text", "statement": "Reading a function's writestr text calls the class of the same name from the same module with the same keyword values, and with the base at the same index of the list it is read with.", "quantifier": "every function whose values are written on one line that evaluates back, without an equals sign in the first word", "why_tests_cant": "All names, values and positions.", "anchors": ["src/diffpy/srmise/basefunction.py:BaseFunction.writestr", "src/diffpy/srmise/basefunction.py:BaseFunction.factory"]}
{"id": "C123", "title": "A list of functions survives its text", "statement": "For a list in which every base stands before its users, writing the functions one after the other and reading them in order gives as many functions, each rebuilt from its own class and values, with the rebuilt base in place of the base.", "quantifier": "every such list, of any length and depth of nesting", "why_tests_cant": "All nestings.", "anchors": ["src/diffpy/srmise/basefunction.py:BaseFunction.writestr", "src/diffpy/srmise/basefunction.py:BaseFunction.factory", "src/diffpy/srmise/modelcluster.py:ModelCluster.writestr", "src/diffpy/srmise/modelcluster.py:ModelCluster.factory"]}
{"id": "C124", "title": "A peak or baseline survives its text", "statement": "Reading the text of a peak or baseline gives the same values, free flags, removable and static_owner, with the function at the same index.", "quantifier": "every part whose values evaluate back", "why_tests_cant": "All values and positions.", "anchors": ["src/diffpy/srmise/modelparts.py:ModelPart.writestr", "src/diffpy/srmise/peaks/base.py:Peak.factory", "src/diffpy/srmise/baselines/base.py:Baseline.factory"]}
{"id": "C125", "title": "Any text value of a function can be read", "statement": "A function whose keyword values evaluate back can be read from its text. Violated: the pattern for keys is greedy, a value like 'a=b' moves part of the value into the key.", "quantifier": "every function", "why_tests_cant": "All texts.", "anchors": ["src/diffpy/srmise/basefunction.py:BaseFunction.factory"]}
{"id": "C126", "title": "A cluster can be written and read", "statement": "ModelCluster.factory(m.writestr()) gives back the cluster. Violated: the evaluator is looked up in a package that does not contain AIC and AICc, so reading always raises; without lists of functions a cluster without baseline or peak functions cannot be written.", "quantifier": "every cluster with the evaluators supplied (or none)", "why_tests_cant": "All clusters.", "anchors": ["src/diffpy/srmise/modelcluster.py:ModelCluster.writestr", "src/diffpy/srmise/modelcluster.py:ModelCluster.factory"]}
{"id": "C127", "title": "A saved extraction can be read", "statement": "read() and readstr() restore a saved extraction, PeakStability.load a saved set of results, and a failed read leaves the object as it was. Violated: they raise for every text, after clearing the object or replacing the results.", "quantifier": "every text and object state", "why_tests_cant": "All texts.", "anchors": ["src/diffpy/srmise/peakextraction.py:PeakExtraction.readstr", "src/diffpy/srmise/peakextraction.py:PeakExtraction.read", "src/diffpy/srmise/peakstability.py:PeakStability.load"]}
{"id": "C128", "title": "Baselines from files: the data are what the file says", "statement": "FromSequence(file) uses the numbers in the file. Violated: the first character of the first data line is dropped, 10 becomes 0.", "quantifier": "every file", "why_tests_cant": "All files.", "anchors": ["src/diffpy/srmise/baselines/fromsequence.py:FromSequence.readxy"]}
{"id": "C129", "title": "Baselines from files: rows after comments", "statement": "After comment lines, and one character in front of the first number, every row of two numbers is read exactly and in order.", "quantifier": "every number of comment lines and rows", "why_tests_cant": "All files.", "anchors": ["src/diffpy/srmise/baselines/fromsequence.py:FromSequence.readxy"]}
{"id": "C130", "title": "Setting data", "statement": "setdata accepts data exactly if x, y and the uncertainties given have the same length; then the object has exactly these data (zeros for missing uncertainties) and, for PDFs, the qmax found in them; no setting changes. Values of another length than x are rejected without any change.", "quantifier": "all sequences and object states", "why_tests_cant": "All inputs.", "anchors": ["src/diffpy/srmise/peakextraction.py:PeakExtraction.setdata", "src/diffpy/srmise/pdfpeakextraction.py:PDFPeakExtraction.setdata"]}
{"id": "C131", "title": "Data and settings agree after setdata", "statement": "After setdata the settings fit the new data, and rejected data leave the object alone. Violated: uncertainties (effective_dy), range, previous results and a qmax found in the previous data survive, also with another length, and data with wrong uncertainties are stored before ValueError is raised.", "quantifier": "all sequences and object states", "why_tests_cant": "Histories.", "anchors": ["src/diffpy/srmise/peakextraction.py:PeakExtraction.setdata", "src/diffpy/srmise/pdfpeakextraction.py:PDFPeakExtraction.setdata"]}
{"id": "C132", "title": "A baseline given as a function is estimated from the range", "statement": "defaultvars replaces a baseline function by the baseline it estimates from exactly the points in the range in effect and their values; if it cannot estimate, by the zero baseline; other exceptions escape and leave the setting.", "quantifier": "all increasing data, ranges (given, partly given or default) and estimators", "why_tests_cant": "All data.", "anchors": ["src/diffpy/srmise/peakextraction.py:PeakExtraction.defaultvars", "src/diffpy/srmise/peakextraction.py:PeakExtraction.getrangeslice"]}
{"id": "C133", "title": "loadpdf starts from a clean object", "statement": "After loadpdf the object has the data and qmax of the data set and no setting or result of before; if the file cannot be read it is empty.", "quantifier": "all data sets, readers and object states", "why_tests_cant": "All histories.", "anchors": ["src/diffpy/srmise/pdfpeakextraction.py:PDFPeakExtraction.loadpdf", "src/diffpy/srmise/pdfpeakextraction.py:PDFPeakExtraction.clear"]}
{"id": "C134", "title": "qmax falls back to the data", "statement": "If the data file reports no qmax, the one found in the data is used (reported, then from data, then 0). Violated: a data set without qmax reports 0, which is taken as a value, so after loadpdf qmax is 0 and there are no termination ripples.", "quantifier": "all files without qmax", "why_tests_cant": "All data.", "anchors": ["src/diffpy/srmise/pdfpeakextraction.py:PDFPeakExtraction.loadpdf", "src/diffpy/srmise/pdfpeakextraction.py:PDFPeakExtraction.defaultvars", "src/diffpy/srmise/pdfdataset.py:PDFDataSet.clear"]}
{"id": "C135", "title": "Estimating a peak from data", "statement": "Estimation needs as many values as positions and at least three positive values; otherwise it raises SrMiseEstimationError. In all other cases it returns three finite parameters whose width is positive and at most maxwidth.", "quantifier": "all data with increasing positions, all maxwidth, both Gaussian peak functions", "why_tests_cant": "All data.", "anchors": ["src/diffpy/srmise/peaks/gaussianoverr.py:GaussianOverR.estimate_parameters", "src/diffpy/srmise/peaks/gaussian.py:Gaussian.estimate_parameters"]}
{"id": "C136", "title": "The estimated peak fits the data's extent and height", "statement": "The estimated peak lies within the points with positive values, has positive area, and its value at its position is exactly the largest value of the data.", "quantifier": "all data with increasing (for GaussianOverR positive) positions and at least three positive values", "why_tests_cant": "All data.", "anchors": ["src/diffpy/srmise/peaks/gaussianoverr.py:GaussianOverR.estimate_parameters", "src/diffpy/srmise/peaks/gaussian.py:Gaussian.estimate_parameters"]}
{"id": "C137", "title": "Estimation is exact on a noise-free peak", "statement": "For the values of a Gaussian sampled on a grid that is symmetric about its maximum and contains it, estimation returns exactly that Gaussian's parameters.", "quantifier": "all positions, widths up to maxwidth, positive areas and symmetric grids", "why_tests_cant": "All parameters and grids.", "anchors": ["src/diffpy/srmise/peaks/gaussian.py:Gaussian.estimate_parameters"]}
{"id": "C138", "title": "What estimation depends on", "statement": "Points with zero or negative value do not influence the estimate, and multiplying the data by a positive factor multiplies the area and changes neither position nor width.", "quantifier": "all data, factors and both Gaussian peak functions", "why_tests_cant": "All pairs of inputs.", "anchors": ["src/diffpy/srmise/peaks/gaussianoverr.py:GaussianOverR.estimate_parameters", "src/diffpy/srmise/peaks/gaussian.py:Gaussian.estimate_parameters"]}
{"id": "C139", "title": "A peak estimated from level data ends inside it", "statement": "A peak estimated from data that all have the same value has died down at the ends of the data, as the source promises. Violated: the width is taken as 1.44 times the extent of the data, so the peak still has more than half its height at both ends.", "quantifier": "all level data whose extent is not limited by maxwidth", "why_tests_cant": "All grids and heights.", "anchors": ["src/diffpy/srmise/peaks/gaussian.py:Gaussian.estimate_parameters"]}
{"id": "C140", "title": "Estimating a polynomial baseline", "statement": "Degrees above 1 raise NotImplementedError, constant and empty polynomials are estimated as zero, and degree 1 as the line through the origin that fits the least tenth of the values (at least one) best in the sense of least squares; so if these values carry no signal, the line is the true baseline.", "quantifier": "all data and degrees, whatever the order among equal values", "why_tests_cant": "All data.", "anchors": ["src/diffpy/srmise/baselines/polynomial.py:Polynomial.estimate_parameters"]}
{"id": "C141", "title": "Estimating one peak at a coordinate", "statement": "estimate_peak(x) raises ValueError and changes nothing if x lies outside the data. Otherwise exactly the points of one cluster of the data left over after baseline and known peaks are used: the cluster holding the first point at or right of x. At most one peak results: it is the initial estimate for these points or the better peak the optimiser made of it. It is returned, and only with add=True it is added (to the extracted peaks if there are any, else to the initial peaks), in position order and changing nothing else. If no point of the cluster rises to its uncertainty, None is returned and nothing changes.", "quantifier": "all data with increasing x, all known peaks and baselines, all coordinates, estimators and optimisers", "why_tests_cant": "All data, coordinates and heuristics.", "anchors": ["src/diffpy/srmise/peakextraction.py:PeakExtraction.estimate_peak", "src/diffpy/srmise/peakextraction.py:PeakExtraction.add_peaks"]}
{"id": "C142", "title": "A peak is estimated near the given coordinate", "statement": "estimate_peak(x) uses the cluster nearest to x. Violated: between two clusters the right-hand one is always used, however far away it is.", "quantifier": "a witness configuration", "why_tests_cant": "A history of clustering steps and the position of x relative to all clusters.", "anchors": ["src/diffpy/srmise/peakextraction.py:PeakExtraction.estimate_peak", "src/diffpy/srmise/dataclusters.py:DataClusters.find_nearest_cluster2"]}
{"id": "C143", "title": "Estimated peaks are taken into account by the next estimate", "statement": "After a peak has been added, the next estimate works on the same points with the same uncertainties and exactly the previously remaining values minus the values of that peak.", "quantifier": "all data, known peaks, baselines and added peaks (exact arithmetic)", "why_tests_cant": "All states.", "anchors": ["src/diffpy/srmise/peakextraction.py:PeakExtraction.estimate_peak", "src/diffpy/srmise/peakextraction.py:PeakExtraction.add_peaks"]}
{"id": "C144", "title": "Command line options reach the extraction", "statement": "When the program `srmise FILE [options]` gets to the extraction, the data are exactly those of FILE and every extraction variable has the value its option gives: --range, --qmax (a number, or 'automatic': the value found in the data), --nyquist, --cres, --supersample (at least 1), --scale; where the option is missing, the documented default (whole range, qmax of the file, Nyquist resampling exactly if qmax is positive, clustering resolution pi/qmax or from the spacing, supersampling 4, no scaling). With a readable file and valid options it always gets there; with another number of files than one it ends with a usage message.", "quantifier": "all option combinations, files and libraries around the program", "why_tests_cant": "The combinations of two dozen options and all data files cannot be enumerated.", "anchors": ["src/diffpy/srmise/applications/extract.py:main", "src/diffpy/srmise/pdfpeakextraction.py:PDFPeakExtraction.setvars,defaultvars,loadpdf"]}
{"id": "C145", "title": "The uncertainty options mean what the help says", "statement": "absolute: --dg itself at every point (also --dg without a mode); max-fraction and ptp-fraction: the fraction of the maximum, or of maximum minus minimum, of the PDF; dG-fraction: the fraction of each reported uncertainty; data, or no option: the reported uncertainties. Missing --dg means 0.05 for the first two fractions and 1 for the last.", "quantifier": "all files, modes and values", "why_tests_cant": "All data and values.", "anchors": ["src/diffpy/srmise/applications/extract.py:main"]}
{"id": "C146", "title": "The baseline options mean what the help says", "statement": "Each number in --bpoly0/1/2, --bcrystal and --bspherical becomes a free parameter, a number with 'c' appended a fixed one, in the documented order (a1 r + a0, a2 r^2 + a1 r + a0); --bcrystal rho is the line -4 pi rho r; scale and radius are taken positive; --baseline NAME is estimated from exactly the points in the range and, if the function cannot estimate, is the zero baseline; no option gives the zero baseline.", "quantifier": "all texts, float parsers, data and ranges", "why_tests_cant": "All texts and data.", "anchors": ["src/diffpy/srmise/applications/extract.py:main,parsepars", "src/diffpy/srmise/baselines/polynomial.py:Polynomial", "src/diffpy/srmise/baselines/nanospherical.py:NanoSpherical"]}
{"id": "C147", "title": "A file without uncertainties uses 5 percent of the maximum (violated)", "statement": "Expected from the help: if the PDF reports no uncertainties the default mode is max-fraction, and every mode can be used. Actual: the uncertainties are taken to be the zeros filled in by the reader, so the extraction runs with uncertainty 0; the mode absolute without --dg raises TypeError, and ptp-fraction raises AttributeError with numpy 2.", "quantifier": "every file without uncertainties; every use of the two modes", "why_tests_cant": "A default that silently applies to all such files.", "anchors": ["src/diffpy/srmise/applications/extract.py:main", "src/diffpy/srmise/pdfdataset.py:PDFDataSet.readStr"]}
{"id": "C148", "title": "--pf and --me select peak function and evaluator (violated)", "statement": "Expected: --pf and --me choose the peak function and the model evaluator. Actual: for every text the program prints a message and stops, because the modules the text is looked up in were never imported.", "quantifier": "every text and file", "why_tests_cant": "Every text fails.", "anchors": ["src/diffpy/srmise/applications/extract.py:main"]}
{"id": "C149", "title": "Options can switch features off (violated)", "statement": "Expected: --no-nyquist prevents Nyquist resampling; --cres 0 and --supersample 0 are applied or rejected. Actual: a false or zero value is treated as not given, and the default (resampling whenever qmax is positive) is used.", "quantifier": "every file and combination of other options", "why_tests_cant": "All files.", "anchors": ["src/diffpy/srmise/applications/extract.py:main"]}
{"id": "C150", "title": "--bseq sets the baseline (violated)", "statement": "Expected: --bseq FILE uses the baseline interpolated from FILE. Actual: the extraction runs with the zero baseline, because a model part without parameters has length 0 and counts as false.", "quantifier": "every file of values, every PDF", "why_tests_cant": "All files.", "anchors": ["src/diffpy/srmise/applications/extract.py:main", "src/diffpy/srmise/modelparts.py:ModelPart.__len__", "src/diffpy/srmise/baselines/fromsequence.py:FromSequence"]}
{"id": "C151", "title": "Saved extractions can be used as input (violated)", "statement": "Expected: --bsrmise FILE uses the baseline of a saved extraction, and a .srmise file given as input restores its settings. Actual: --bsrmise raises for every file, and the settings in the input file never have any effect.", "quantifier": "every file content", "why_tests_cant": "All contents.", "anchors": ["src/diffpy/srmise/applications/extract.py:main", "src/diffpy/srmise/peakextraction.py:PeakExtraction.read,readstr"]}
{"id": "C152", "title": "What the program writes", "statement": "If the extraction raises, nothing is written. Otherwise --save and --pwa write exactly the requested files with the text of the final state. Violated part: if the --save file cannot be opened the program ends with the operating system's exception and the summary is not written, although main has a handler that reports the failure and goes on; --pwa with --no-extract ends with an uncaught exception.", "quantifier": "all states, file systems and outcomes of the extraction", "why_tests_cant": "All crash points between the steps.", "anchors": ["src/diffpy/srmise/applications/extract.py:main", "src/diffpy/srmise/peakextraction.py:PeakExtraction.write", "src/diffpy/srmise/pdfpeakextraction.py:PDFPeakExtraction.writepwa"]}
{"id": "C153", "title": "What a fit minimises", "statement": "The vector handed to the optimiser is (observed - model) / uncertainty at exactly the points of the fitted range, in order, for the model whose free parameters are the given numbers and whose fixed parameters are unchanged; it is zero exactly when the model passes through every point of the range.", "quantifier": "all models, parameter vectors, data and ranges", "why_tests_cant": "All models and data.", "anchors": ["src/diffpy/srmise/modelparts.py:ModelParts.residual,value,pack_freepars", "src/diffpy/srmise/basefunction.py:BaseFunction.value"]}
{"id": "C154", "title": "The derivatives given to the optimiser", "statement": "One row per free parameter, in the order of the free parameters, one entry per point of the range, each the partial derivative of the residual - for all models of GaussianOverR peaks with nonzero area, nanospherical baselines with positive parameters, constant baselines and fixed polynomial baselines, and for any class whose own Jacobian is right.", "quantifier": "all such models, parameter vectors, data and ranges", "why_tests_cant": "Real-valued parameters: derivatives cannot be tested.", "anchors": ["src/diffpy/srmise/modelparts.py:ModelParts.residual_jacobian", "src/diffpy/srmise/basefunction.py:BaseFunction.jacobian"]}
{"id": "C155", "title": "Derivatives with a polynomial baseline (violated)", "statement": "Expected: the derivatives are also right when a polynomial baseline of degree at least one is fitted. Actual: with a free leading coefficient the derivative with respect to it is wrong at every point with r^degree <> 1, whatever the peaks are.", "quantifier": "all peaks, degrees, coefficients, data and ranges", "why_tests_cant": "All models.", "anchors": ["src/diffpy/srmise/modelparts.py:ModelParts.residual_jacobian", "src/diffpy/srmise/baselines/polynomial.py:Polynomial._jacobianraw"]}
{"id": "C156", "title": "Scale of the fitted covariance (violated)", "statement": "Expected: the covariance stored by a fit is the optimiser's matrix times the sum of squared residuals divided by the number of fitted points minus the number of free parameters. Actual: the number of all data points is used although only the points of the range are fitted, so that for every fit over a part of the data all uncertainties are too small by a known factor; it is right for a fit over all data.", "quantifier": "all models, data and ranges", "why_tests_cant": "All ranges.", "anchors": ["src/diffpy/srmise/modelparts.py:ModelParts.fit", "src/diffpy/srmise/modelcluster.py:ModelCluster.fit"]}
{"id": "C157", "title": "Covariance of the parameters as stored (violated)", "statement": "Expected: the covariance stored by a fit belongs to the stored parameters. Actual: parameters are brought to normal form after the optimiser returns and the matrix is not transformed, so if the optimiser ends at a negative area the covariance of position and area has the wrong sign; right for positive area.", "quantifier": "all peak parameters and covariance matrices", "why_tests_cant": "All solutions of the optimiser.", "anchors": ["src/diffpy/srmise/modelparts.py:ModelParts.fit", "src/diffpy/srmise/peaks/gaussianoverr.py:GaussianOverR._transform_parametersraw"]}
{"id": "C158", "title": "The returned covariance describes the extracted model (violated)", "statement": "Expected: part l, parameter m of the covariance returned by extract/fit is part l, parameter m of the extracted model. Actual: it describes the peaks in the order in which the optimiser left them, including peaks removed after the fit, and after a fit that was undone it describes the rejected parameters. It is right when the optimiser kept the peaks in order, positions differ and nothing was removed.", "quantifier": "all models, data, optimisers and statistics", "why_tests_cant": "Any optimiser result.", "anchors": ["src/diffpy/srmise/modelcluster.py:ModelCluster.fit,cleanfit", "src/diffpy/srmise/modelparts.py:ModelParts.fit", "src/diffpy/srmise/modelcluster.py:ModelCovariance.setcovariance"]}
{"id": "C159", "title": "find_qmax: outcome for every PDF", "statement": "For r and y of the same length n with increasing end points, find_qmax raises IndexError for n < 4 and ValueError for 4 <= n < 8; for n >= 8, unless the spread of some group of Fourier coefficients is zero, it returns qmax = m*dq and dq = 2*pi/(r[-1]-r[0]), where m, between 2 and n/2-2, is the last index at which the ratio of the spread of the coefficients before and after it (of the data interpolated on 2n points) bends down most sharply.  The qmax found is positive and strictly below the Nyquist limit of the data, so a qmax found automatically never exceeds what the data can represent.  Arrays of different lengths raise ValueError.", "quantifier": "all PDFs of any length (real arithmetic)", "why_tests_cant": "The data range over all finite arrays; the choice of the maximum and the limit must hold for each of them.", "anchors": ["src/diffpy/srmise/pdfpeakextraction.py:find_qmax", "src/diffpy/srmise/pdfpeakextraction.py:resample", "src/diffpy/srmise/pdfpeakextraction.py:stdratio"]}
{"id": "C160", "title": "The qmax found is the frequency of the coefficient chosen, within a quarter of its reported uncertainty", "statement": "Whenever find_qmax returns (qmax, dq), the Fourier coefficient at which the spread ratio bends most is the sine transform of the interpolated data at a frequency Q that is not an alias, and |qmax - Q| < dq/4 (it is never exactly Q, because the code divides by the number of intervals instead of the number of points).", "quantifier": "all PDFs for which find_qmax returns a value", "why_tests_cant": "Needs the trigonometric identity between DFT indices and frequencies, for every number of points.", "anchors": ["src/diffpy/srmise/pdfpeakextraction.py:find_qmax"]}
{"id": "C161", "title": "Extraction metadata survive their text", "statement": "readmetadata(writemetadata()) sets exactly the seven PDF attributes (file name, nyquist, qmax, the two other qmax values, scale, supersample) to the written values, provided each value's repr has no line break and evaluates to it.  For any other text the attributes are read one after the other: the first missing field raises SrMiseDataFormatError, the attributes before it have been replaced then and the others keep their values.", "quantifier": "all values and all texts", "why_tests_cant": "Values and texts are unbounded; the field names are prefixes of one another (qmax, qmax_reportedbypdf), so the pattern must be right for every text.", "anchors": ["src/diffpy/srmise/pdfpeakextraction.py:PDFPeakExtraction.writemetadata", "src/diffpy/srmise/pdfpeakextraction.py:PDFPeakExtraction.readmetadata"]}
{"id": "C162", "title": "The summary of extracted peaks is complete and its indices are right", "statement": "writepwastr raises SrMiseError without an extraction and TypeError if the baseline variable has become a function.  Otherwise, if every peak can be converted, the summary has one line per extracted peak, in order, with its position, width and area and the index of the line of the function it belongs to; the tables list exactly the functions used and those they decorate, each once, and every base index refers to an earlier line; the fitted baseline is listed with its labels in parameter order and the right function index.  This holds for every order in which Python lists a set.", "quantifier": "all extractions, function graphs without cycles and set orders", "why_tests_cant": "The order of a set of objects differs from run to run; graphs and numbers of peaks are unbounded.", "anchors": ["src/diffpy/srmise/pdfpeakextraction.py:PDFPeakExtraction.writepwastr", "src/diffpy/srmise/basefunction.py:BaseFunction.safefunctionlist"]}
{"id": "C163", "title": "Parameters by name or index", "statement": "For a part whose function has a valid parameter dictionary, part[name] and getfree(name) give the value and the free flag at the index of that name; setfree(key, b) makes exactly the flags that the same key (name, index or slice) reads equal to b and returns all others unchanged; unknown names raise IndexError.", "quantifier": "all parts, dictionaries, names, indices and slices", "why_tests_cant": "Dictionaries, vectors, indices and slices are unbounded.", "anchors": ["src/diffpy/srmise/modelparts.py:ModelPart.__getitem__", "src/diffpy/srmise/modelparts.py:ModelPart.getfree", "src/diffpy/srmise/modelparts.py:ModelPart.setfree"]}
{"id": "C164", "title": "Parts of a model by index, slice or pair", "statement": "model[i] is the i-th part (counted from the end if negative; IndexError outside), model[a:b] and model[a, b] are models with the parts a to b-1 in order, cutting anywhere loses and repeats nothing, and tuples that are not pairs raise TypeError.", "quantifier": "all models, indices and bounds", "why_tests_cant": "Models and bounds are unbounded integers.", "anchors": ["src/diffpy/srmise/modelparts.py:ModelParts.__getitem__"]}
{"id": "C165", "title": "Changing the parameter format of a model", "statement": "ModelParts.transform converts the parameters of every part with its own function; parts whose functions do not know the formats keep their parameters; any other error is raised after exactly the parts before it have been converted.  Converting back restores every part when the conversions are inverse to each other.", "quantifier": "all models, formats and functions", "why_tests_cant": "Arbitrary mixtures of functions and formats, and errors at any part.", "anchors": ["src/diffpy/srmise/modelparts.py:ModelParts.transform", "src/diffpy/srmise/basefunction.py:BaseFunction.transform_parameters"]}
{"id": "C166", "title": "covariance() and pgradient() return what they document (violated)", "statement": "ModelParts.covariance returns the estimated covariance matrix in the requested formats and BaseFunction.pgradient the gradient matrix of a format.  Violated: for every model and keywords covariance returns None or raises, and pgradient always returns None.", "quantifier": "all models, keywords and formats", "why_tests_cant": "No test of particular inputs shows that no input ever gives a matrix.", "anchors": ["src/diffpy/srmise/modelparts.py:ModelParts.covariance", "src/diffpy/srmise/basefunction.py:BaseFunction.pgradient"]}
{"id": "C167", "title": "Peak positions drawn for comparison", "statement": "comparepositions draws one vertical line for each extracted position within [pmin, pmax], in order, and one for each ideal position, separated by gaps, with limits and ticks that match.", "quantifier": "all lists of positions and limits", "why_tests_cant": "Lists of positions and limits are unbounded.", "anchors": ["src/diffpy/srmise/applications/plot.py:comparepositions"]}
{"id": "C168", "title": "Positions drawn against the uncertainty", "statement": "dgseries draws exactly one point (position, dg*scale) for each position within [pmin, pmax] of each stored result whose dg is within the limits; with results in ascending order of dg and no limits given, all results are shown.", "quantifier": "all stored results, limits and positive scales", "why_tests_cant": "Results, limits and scales are unbounded.", "anchors": ["src/diffpy/srmise/applications/plot.py:dgseries"]}
{"id": "C169", "title": "All stored results are drawn by default (violated)", "statement": "With no limits given, dgseries shows every stored result.  Violated: whenever the first stored uncertainty is larger than the last nothing is drawn, because the first and last results are taken as the limits.", "quantifier": "all stored results in an order with the first dg above the last", "why_tests_cant": "Holds for every such list of results.", "anchors": ["src/diffpy/srmise/applications/plot.py:dgseries"]}
{"id": "C170", "title": "The plotting program draws saved files (violated)", "statement": "srmise-plot draws a saved extraction or stability file, optionally with a file of distances to compare.  Violated: for every file content the program reports that it is not a data file, and readcompare raises for every file.", "quantifier": "all file contents", "why_tests_cant": "A claim about every possible file.", "anchors": ["src/diffpy/srmise/applications/plot.py:main", "src/diffpy/srmise/applications/plot.py:readcompare", "src/diffpy/srmise/peakextraction.py:PeakExtraction.read", "src/diffpy/srmise/peakstability.py:PeakStability.load"]}
{"id": "C171", "title": "Log levels are respected", "statement": "After any sequence of addfilelog, setfilelevel and setlevel calls (levels given by the five names or positive integers), the console shows exactly the messages of at least the level last passed to setlevel (INFO at the start), independently of any log files; a newly opened log file whose level is then set with setfilelevel receives exactly the messages of at least that level, whatever was called before and however the console level changes later.", "quantifier": "all call histories, all message levels, any level of the root logger", "why_tests_cant": "Histories are unbounded; the logger's own level is shared by all outputs.", "anchors": ["src/diffpy/srmise/srmiselog.py:setlevel", "src/diffpy/srmise/srmiselog.py:setfilelevel", "src/diffpy/srmise/srmiselog.py:addfilelog"]}
{"id": "C172", "title": "The level given to addfilelog is used (violated)", "statement": "addfilelog(file, level) makes the file receive the messages of at least that level, and accepts the level names setlevel and setfilelevel accept.  The code violates it: the logger is not lowered, so a DEBUG log file stays without debug messages, and every such name raises ValueError, leaving a handler that setfilelevel accepts but that no message reaches.", "quantifier": "all levels and names", "why_tests_cant": "The failure depends on the logger's state.", "anchors": ["src/diffpy/srmise/srmiselog.py:addfilelog"]}
{"id": "C173", "title": "Rejected and extreme levels (violated)", "statement": "A level that setlevel rejects has no effect, and a lower level never hides messages.  Unknown names and objects are rejected without effect, but the upper-case names of Python's logging raise TypeError after the console level has changed, and setlevel(0) hides INFO messages because the root logger's level takes over.", "quantifier": "all levels and states", "why_tests_cant": "Needs all levels; depends on the root logger.", "anchors": ["src/diffpy/srmise/srmiselog.py:setlevel", "src/diffpy/srmise/srmiselog.py:setfilelevel"]}
{"id": "C174", "title": "Rejected liveplotting calls have no effect (violated)", "statement": "liveplotting sets both switches when both arguments are booleans, and a rejected call changes nothing.  The code violates the second half: if only the second argument is rejected the first switch has already been set.", "quantifier": "all states and arguments", "why_tests_cant": "A single rejected call in a test may start from the same value.", "anchors": ["src/diffpy/srmise/srmiselog.py:liveplotting"]}
{"id": "C175", "title": "What makeplot draws at which points", "statement": "The observed curve is drawn at every point of the model's grid, at points before it in steps of (r[-1]-r[0])/len(r) while they are above xlo, and after it in the same steps until xhi is reached (exactly the grid if xlo and xhi are left alone); on a uniform data grid it passes through the scaled datum at every data point where it is drawn.  The fit and the peaks are drawn at ten points per grid point in equal steps over [r[0], r[-1]).", "quantifier": "all grids, data, limits and scales", "why_tests_cant": "Grids, data and limits are unbounded.", "anchors": ["src/diffpy/srmise/applications/plot.py:makeplot", "src/diffpy/srmise/pdfpeakextraction.py:resample"]}
{"id": "C176", "title": "The layout of the picture keeps data, residual and insets apart", "statement": "With limits left to makeplot and offsets that leave room, in percent of the height: all data, fit and (if individual peaks are shown) peak values stay below the insets by datatop_offset, every residual value stays below every data value by databottom_offset and above the lower limit by bottom_offset.  makeplot succeeds whenever at least one curve is shown and the inset of uncertainties, if any, has results.", "quantifier": "all data, models, masks, scales, offsets and choices of curves", "why_tests_cant": "Holds for every combination of switches and values.", "anchors": ["src/diffpy/srmise/applications/plot.py:makeplot"]}
{"id": "C177", "title": "show_individual controls whether individual peaks are drawn (violated)", "statement": "The individual peaks are drawn exactly if show_individual is set.  Violated: whether they are drawn depends only on fill_individual.", "quantifier": "all plots that succeed", "why_tests_cant": "No single figure shows that the switch is never used.", "anchors": ["src/diffpy/srmise/applications/plot.py:makeplot"]}
{"id": "C178", "title": "Explicit limits make defaults unnecessary (violated)", "statement": "With min_gr and max_gr given the residual can be shown alone, and dg_height reserves room for the inset.  Violated: without any of observed, fit and individual curves makeplot always raises, because the defaults are computed anyway, and a positive dg_height without stability results always raises.", "quantifier": "all data, models and keyword combinations with those switches", "why_tests_cant": "A claim about every combination of the remaining keywords.", "anchors": ["src/diffpy/srmise/applications/plot.py:makeplot"]}
{"id": "C179", "title": "Curves of a model cluster", "statement": "plottable() returns grid/values pairs: first the cluster's data, then for every peak in order the baseline plus that peak over the cluster's grid; plottable(True) returns the data and the baseline plus all peaks.  plottable_residual() returns the grid and the data minus that sum, point by point.", "quantifier": "all clusters, slices, baselines and peaks", "why_tests_cant": "Numbers of peaks and points are unbounded; the list is built by overwriting places.", "anchors": ["src/diffpy/srmise/modelcluster.py:ModelCluster.plottable", "src/diffpy/srmise/modelcluster.py:ModelCluster.plottable_residual", "src/diffpy/srmise/modelcluster.py:ModelCluster.value"]}
{"id": "C180", "title": "plot(joined=...) of an extraction is respected (violated)", "statement": "PeakExtraction.plot takes the keywords of plottable: joined=False shows the peaks separately.  Violated: any keyword makes the joined curve be shown; only plot() without keywords shows separate peaks.", "quantifier": "all extractions and keywords", "why_tests_cant": "No single picture shows that the value is never used.", "anchors": ["src/diffpy/srmise/peakextraction.py:PeakExtraction.plot"]}
{"id": "C181", "title": "The text of a covariance shows every parameter", "statement": "str(covariance) has a line per part with an entry per parameter, in order; each entry, and prettypar for the number or the pair of the parameter, shows exactly the value and uncertainty get() returns.  Without covariance both say so.", "quantifier": "all models and covariance matrices", "why_tests_cant": "Models and matrices are unbounded.", "anchors": ["src/diffpy/srmise/modelcluster.py:ModelCovariance.prettypar", "src/diffpy/srmise/modelcluster.py:ModelCovariance.__str__"]}
{"id": "C182", "title": "Cluster boundaries as points (violated)", "statement": "cluster_boundaries returns the (x, y) points of all boundaries: half way between neighbouring clusters, and for outer clusters the edge of the data.  Violated: it returns one flat list with the sorted x and y values mixed, and a cluster at the first datum gives NaN.", "quantifier": "all data and clusterings", "why_tests_cant": "A claim about all clusterings.", "anchors": ["src/diffpy/srmise/dataclusters.py:DataClusters.cluster_boundaries"]}
{"id": "C183", "title": "Clusterings can be shown and animate restores the state (violated)", "statement": "DataClusters.plot draws the boundaries and animate shows the clustering and restores the state.  Violated: plot raises IndexError whenever there is a cluster; animate raises after its first step and leaves the clustering restarted.", "quantifier": "all states", "why_tests_cant": "A claim about all states.", "anchors": ["src/diffpy/srmise/dataclusters.py:DataClusters.plot", "src/diffpy/srmise/dataclusters.py:DataClusters.animate"]}
{"id": "C184", "title": "Animating stored results restores the selected one", "statement": "PeakStability.animate never changes stored results, models or settings, and if a stored result was selected, a complete animation of any sequence of results restores the whole state (selection, uncertainty, extracted cluster).", "quantifier": "all stored results, sequences of indices, drawing outcomes", "why_tests_cant": "Sequences of results are unbounded.", "anchors": ["src/diffpy/srmise/peakstability.py:PeakStability.animate", "src/diffpy/srmise/peakstability.py:PeakStability.setcurrent"]}
{"id": "C185", "title": "Animating does not change the extraction (violated)", "statement": "animate only shows results.  Violated: with no result selected (as after run()) a complete animation discards the extracted cluster; without results it raises and selects a result that does not exist; a bad index stays selected.", "quantifier": "all states", "why_tests_cant": "A claim about all states without a selection.", "anchors": ["src/diffpy/srmise/peakstability.py:PeakStability.animate"]}
{"id": "C186", "title": "A written data set is read back", "statement": "writeStr followed by readStr on the text gives back the scattering type, qmax (two decimals), qdamp, qbroad, dscale, the columns r and G (six significant digits), every metadata entry with its exact value, uncertainty columns that are positive, and rmin, rmax as the first and last r.", "quantifier": "all non-empty data sets with finite values and equal column lengths, all metadata with distinct word keys, all dates and user names without newline or '=' (for neutron data: that do not name x-ray)", "why_tests_cant": "Must hold for every text the regular expressions can be confused by.", "anchors": ["src/diffpy/srmise/pdfdataset.py:PDFDataSet.writeStr", "src/diffpy/srmise/pdfdataset.py:PDFDataSet.readStr"]}
{"id": "C187", "title": "Nothing is lost by writing and reading (violated)", "statement": "writeStr and readStr preserve every data set.  Violated: neutron data become X-ray data when the login of the user contains xray, x-ray or pdfgetx; spdiameter is never written; one zero uncertainty replaces the whole column by zeros; an empty data set is written but cannot be read.", "quantifier": "all data sets", "why_tests_cant": "A claim about all data sets and users.", "anchors": ["src/diffpy/srmise/pdfdataset.py:PDFDataSet.writeStr", "src/diffpy/srmise/pdfdataset.py:PDFDataSet.readStr"]}
{"id": "C188", "title": "Header values are found", "statement": "A header line 'key = value' sets the value: qmax, qdamp or qsig, qbroad or qalp, spdiameter, dscale, in any mixture of upper and lower case and with any number of spaces around '='.", "quantifier": "all headers whose earlier lines have no '=', all numerals", "why_tests_cant": "The number of spellings, spaces and surrounding lines is unbounded.", "anchors": ["src/diffpy/srmise/pdfdataset.py:PDFDataSet.readStr"]}
{"id": "C189", "title": "The number in the header is the number read (violated)", "statement": "readStr reads the number written after the key.  Violated: a unit directly after the number truncates it at the decimal point (qmax=25.5A is 25) or hides it (qmax=25A is ignored).", "quantifier": "all header values", "why_tests_cant": "Backtracking of the regular expression.", "anchors": ["src/diffpy/srmise/pdfdataset.py:PDFDataSet.readStr"]}
{"id": "C190", "title": "Writing a file is all or nothing until it is opened", "statement": "PDFDataSet.write, PeakExtraction.write and PDFPeakExtraction.writepwa make the whole text before they open the file: if the text cannot be made, the file keeps its contents.  At every moment, also after a crash or a failure of the operating system, the file holds its old contents or a beginning of the new text, and no other file is touched; when the method returns the file holds the whole text.  TracePeaks.write and PeakStability.save also touch only their own file and have written all of it when they return.", "quantifier": "all texts, file names, disks, crash points, failures of open, write and close, times at which buffers reach the disk", "why_tests_cant": "Crash points, failures and flushing times are not under the control of a test.", "anchors": ["src/diffpy/srmise/pdfdataset.py:PDFDataSet.write", "src/diffpy/srmise/peakextraction.py:PeakExtraction.write", "src/diffpy/srmise/pdfpeakextraction.py:PDFPeakExtraction.writepwa", "src/diffpy/srmise/srmiselog.py:TracePeaks.write", "src/diffpy/srmise/peakstability.py:PeakStability.save"]}
{"id": "C191", "title": "An interrupted write keeps a usable file (violated)", "statement": "If the program stops while it writes a file, the file holds the old or the new contents.  Violated: every beginning of the new text, also the empty one, is possible, and the old contents are gone.", "quantifier": "all texts, all crash points", "why_tests_cant": "A crash point can be anywhere.", "anchors": ["src/diffpy/srmise/pdfdataset.py:PDFDataSet.write", "src/diffpy/srmise/peakextraction.py:PeakExtraction.write"]}
{"id": "C192", "title": "Data sets survive on disk", "statement": "PDFDataSet.write followed by read on the same name gives the same data with numbers rounded to the digits written, and records the full path of the file; read of a file that is missing or not readable text raises without touching the disk.", "quantifier": "all writable data sets, disks, file names, readers", "why_tests_cant": "Every data set, name and disk.", "anchors": ["src/diffpy/srmise/pdfdataset.py:PDFDataSet.write", "src/diffpy/srmise/pdfdataset.py:PDFDataSet.read"]}
{"id": "C193", "title": "A truncated data file is noticed (violated)", "statement": "Reading a data file whose writing was interrupted raises an error.  Violated: for every k smaller than the number of points there is a crash point after which the file is read without complaint as a data set of the first k points.", "quantifier": "all writable data sets, all numbers of points", "why_tests_cant": "Crash points.", "anchors": ["src/diffpy/srmise/pdfdataset.py:PDFDataSet.write", "src/diffpy/srmise/pdfdataset.py:PDFDataSet.read"]}
{"id": "C194", "title": "A failed text leaves the file alone for traces and stability results (violated)", "statement": "If the text of a trace or of stability results cannot be made, the existing file keeps its contents.  Violated: TracePeaks.write and PeakStability.save open, and so empty, the file first.", "quantifier": "all files, all errors", "why_tests_cant": "A claim about all failures.", "anchors": ["src/diffpy/srmise/srmiselog.py:TracePeaks.write", "src/diffpy/srmise/peakstability.py:PeakStability.save"]}
{"id": "C195", "title": "Trace files of one operation", "statement": "While tracing to files, each trace of an operation that passes the filter is written completely to its own file, numbered from 0 in the order of the calls, and no other file is touched.", "quantifier": "all sequences of traces and nested calls within one operation", "why_tests_cant": "Sequences and nesting are unbounded.", "anchors": ["src/diffpy/srmise/srmiselog.py:TracePeaks.emit", "src/diffpy/srmise/srmiselog.py:TracePeaks.write"]}
{"id": "C196", "title": "Trace files stay (violated)", "statement": "The trace files of an operation stay on disk when the next operation is traced.  Violated: numbering starts at 0 again and the next operation replaces them.", "quantifier": "all pairs of operations", "why_tests_cant": "A claim about histories.", "anchors": ["src/diffpy/srmise/srmiselog.py:TracePeaks.emit", "src/diffpy/srmise/srmiselog.py:TracePeaks.pushc"]}
{"id": "C197", "title": "Tables of information criteria on disk (violated)", "statement": "makeaics with a filename sets the tables of the object whatever happens to the file, and the file is complete when it returns; loadaics of that file restores the tables.  The second half is violated: loadaics raises for every file, after replacing the table of the object.", "quantifier": "all tables, files, disks", "why_tests_cant": "Every table and every disk.", "anchors": ["src/diffpy/srmise/multimodelselection.py:MultimodelSelection.makeaics", "src/diffpy/srmise/multimodelselection.py:MultimodelSelection.loadaics"]}
{"id": "C198", "title": "When the text of an extraction can be made", "statement": "PDFPeakExtraction.writestr returns a text exactly if the clustering resolution is set, the extracted model (if there is one) has its peak functions, and none of the arrays x, y, dx, dy, effective_dy has fewer values than the last of them that is set; in every other case it raises.", "quantifier": "all extractions: any lists of functions, peaks, baselines, arrays and results", "why_tests_cant": "Every combination of attributes and every array length.", "anchors": ["src/diffpy/srmise/peakextraction.py:PeakExtraction.writestr", "src/diffpy/srmise/pdfpeakextraction.py:PDFPeakExtraction.writemetadata"]}
{"id": "C199", "title": "Any extraction can be saved (violated)", "statement": "An extraction can be saved.  Violated: the base class PeakExtraction can never be written, whatever it contains, because its writemetadata returns None where a string is joined.", "quantifier": "all extractions", "why_tests_cant": "No extraction at all can be written.", "anchors": ["src/diffpy/srmise/peakextraction.py:PeakExtraction.writestr", "src/diffpy/srmise/peakextraction.py:PeakExtraction.writemetadata"]}
{"id": "C200", "title": "The text of an extraction is complete", "statement": "Whatever PDFPeakExtraction.writestr writes, the steps of readstr find again: copies of the peak and baseline functions with copies of their bases, the initial peaks, the baseline object, the resolution and the arrays (rounded to the digits written), the evaluator's name, the range, the kind of extraction and the attributes of the PDF, provided the search for the column of uncertainties, the lookup of the evaluator and ModelCluster.factory do what they are meant to do (they do not: C126, C127).", "quantifier": "all extractions whose values are preserved by repr and eval; all numbers of functions, peaks and rows", "why_tests_cant": "Every text: unbounded numbers of functions, peaks, columns and rows.", "anchors": ["src/diffpy/srmise/peakextraction.py:PeakExtraction.writestr", "src/diffpy/srmise/peakextraction.py:PeakExtraction.readstr", "src/diffpy/srmise/pdfpeakextraction.py:PDFPeakExtraction.readmetadata"]}
{"id": "C201", "title": "Extraction ends with a model", "statement": "With a well-behaved optimiser and estimator (they return or raise their own SrMise error; a fit of no peaks may raise ValueError), peaks that may all be removed, at least one peak function and increasing data, an extraction ends and returns a model of removable peaks; no other exception leaves it. (What holds: a model or a ValueError.)", "quantifier": "all data, uncertainties, resolutions, initial peaks, statistics, outcomes of the fits and estimates, and all nested extractions", "why_tests_cant": "the loop, joins, boundary recursion, augmenting and pruning interact; a failing combination needs particular data and fit results", "anchors": ["src/diffpy/srmise/src/diffpy/srmise/peakextraction.py:PeakExtraction.extract_single", "src/diffpy/srmise/src/diffpy/srmise/modelcluster.py:ModelCluster"]}
{"id": "C202", "title": "The neighbourhood of a border", "statement": "When two clusters meet, and when a cluster reaches an end of the data, the peaks re-examined are the nearest one on each side of the border, all others are kept, and the data used contain the border. (What holds: at joins and at the left end; at the right end the border is read with the number of the cluster.)", "quantifier": "all clusters, sorted peak lists, borders and data grids", "why_tests_cant": "needs all arrangements of peaks around a border and all cluster numbers", "anchors": ["src/diffpy/srmise/src/diffpy/srmise/peakextraction.py:PeakExtraction.extract_single"]}
{"id": "C203", "title": "A baseline from points can be made in exactly four ways", "statement": "FromSequence(name), FromSequence(file=name), FromSequence(xs, ys) and FromSequence(x=xs, y=ys) succeed exactly if the file has rows of two numbers (resp. the two sequences have the same length) and the spline accepts the points; the safe range then is from the first to the last x. A call with any other combination of positional and keyword arguments raises TypeError and changes nothing. (Keywords other than x, y and file are ignored in the keyword forms.)", "quantifier": "All argument lists, keyword dictionaries, files and sequences.", "why_tests_cant": "The combinations of arguments are unbounded; a test tries the four documented forms.", "anchors": ["src/diffpy/srmise/src/diffpy/srmise/baselines/fromsequence.py:FromSequence.__init__", "src/diffpy/srmise/src/diffpy/srmise/baselines/fromsequence.py:FromSequence.readxy"]}
{"id": "C204", "title": "A baseline from points is evaluated by its spline, and leaving the range of the points is reported", "statement": "A FromSequence baseline has no parameters: parameters are refused with ValueError, nothing is estimated, the jacobian is empty. Its value is that of the spline at every r; for a number or an increasing array a warning is logged exactly if some r lies outside the points given; at the points themselves it is the y given if the spline passes through them.", "quantifier": "All baselines made from increasing x, all arrays and numbers r.", "why_tests_cant": "For every array, including those that end outside on one side only.", "anchors": ["src/diffpy/srmise/src/diffpy/srmise/baselines/fromsequence.py:FromSequence._valueraw", "src/diffpy/srmise/src/diffpy/srmise/baselines/fromsequence.py:FromSequence._jacobianraw", "src/diffpy/srmise/src/diffpy/srmise/baselines/fromsequence.py:FromSequence._transform_parametersraw"]}
{"id": "C205", "title": "The text of a baseline from points describes that baseline", "statement": "Writing a FromSequence baseline and reading the text back gives a baseline with the same spline and the same safe range.", "quantifier": "All baselines from points, all later states of the lists they were made from.", "why_tests_cant": "Histories: what the user does with the lists between construction and writing is unbounded.", "anchors": ["src/diffpy/srmise/src/diffpy/srmise/baselines/fromsequence.py:FromSequence.xyrepr", "src/diffpy/srmise/src/diffpy/srmise/basefunction.py:BaseFunction.writestr", "src/diffpy/srmise/src/diffpy/srmise/basefunction.py:BaseFunction.factory"]}
{"id": "C206", "title": "An extraction changes the baseline only in its last fit, and never one without free parameters", "statement": "The model extracted with a baseline that has no free parameter has that very baseline, and so has the model of every nested extraction. Otherwise its baseline is the one given or what the optimiser left in it in one fit that started from it.", "quantifier": "All data, baselines, initial peaks, optimisers, depths.", "why_tests_cant": "For every data set and every behaviour of the optimiser, through the whole recursive extraction.", "anchors": ["src/diffpy/srmise/src/diffpy/srmise/peakextraction.py:PeakExtraction.extract_single", "src/diffpy/srmise/src/diffpy/srmise/modelcluster.py:ModelCluster.fit"]}
{"id": "C207", "title": "Equal parts and models are the same function", "statement": "Two parts compare equal exactly if they belong to the same function object, have the same parameters (none of them NaN), the same parameters are free and both or none may be removed. This is symmetric and transitive. Models that compare equal have the same value on every grid, the same number of parameters and the same free parameters; a copied model without NaN compares equal to the original.", "quantifier": "All states reachable by making, copying, fixing, changing and re-owning parts; all models, all grids.", "why_tests_cant": "All histories of the shared parts, all parameter values including NaN.", "anchors": ["src/diffpy/srmise/src/diffpy/srmise/modelparts.py:ModelPart.__eq__", "src/diffpy/srmise/src/diffpy/srmise/modelparts.py:ModelParts.copy", "src/diffpy/srmise/src/diffpy/srmise/modelparts.py:ModelParts.value"]}
{"id": "C208", "title": "Equal clusterings go on alike", "statement": "Two DataClusters that compare equal give the same result for every sequence of next, reset, makeclusters and combine calls, and answer every query alike; those that differ in data, resolution, clusters or progress do not compare equal.", "quantifier": "All pairs of objects, all sequences of calls.", "why_tests_cant": "Unbounded histories of calls after the comparison.", "anchors": ["src/diffpy/srmise/src/diffpy/srmise/dataclusters.py:DataClusters.__eq__", "src/diffpy/srmise/src/diffpy/srmise/dataclusters.py:DataClusters.next", "src/diffpy/srmise/src/diffpy/srmise/dataclusters.py:DataClusters.reset_clusters"]}
{"id": "C209", "title": "Animating the model probabilities does not change the results", "statement": "animate_probs shows, for each uncertainty, its probabilities and the most probable stored model on its baseline, and leaves the stored results as they were. Violated: the result that is best at the first uncertainty is overwritten with the peaks of another one, is shown with those when it becomes best again, and the baseline of the first is shown throughout.", "quantifier": "All stored results, all probability tables, all sequences of best models.", "why_tests_cant": "For every sequence of best models, through objects shared between the display and the stored results.", "anchors": ["src/diffpy/srmise/src/diffpy/srmise/multimodelselection.py:ModelSelection.animate_probs", "src/diffpy/srmise/src/diffpy/srmise/modelcluster.py:ModelCluster.replacepeaks", "src/diffpy/srmise/src/diffpy/srmise/peakstability.py:PeakStability.setcurrent"]}
{"id": "C210", "title": "Animating the class probabilities keeps the results and follows the best class", "statement": "animate_classprobs leaves the stored results as they were, however it ends. A complete animation shows one picture per uncertainty with its class probabilities and, after the first, the dot at the best class; whenever the best class changes the peaks shown are those of its best member at that uncertainty.", "quantifier": "All stored results, all classes and probability tables.", "why_tests_cant": "All sequences of best classes, all ways to fail on the way.", "anchors": ["src/diffpy/srmise/src/diffpy/srmise/multimodelselection.py:ModelSelection.animate_classprobs", "src/diffpy/srmise/src/diffpy/srmise/modelcluster.py:ModelCluster.replacepeaks"]}
{"id": "C211", "title": "The animation of classes shows the best model of the best class", "statement": "At each uncertainty animate_classprobs shows the best member of the best class, and marks the best class. Violated: the model stays as long as the class stays, although another member may be best by then, and in the first picture the dot is at an uncertainty instead of a class number.", "quantifier": "All stored results, all classes and probability tables.", "why_tests_cant": "All sequences of best classes.", "anchors": ["src/diffpy/srmise/src/diffpy/srmise/multimodelselection.py:ModelSelection.animate_classprobs"]}
{"id": "C212", "title": "The class probabilities can be plotted", "statement": "plot3dclassprobs draws the classes whose largest probability lies in the filter. Violated: it never returns; with a class to draw it raises ValueError, since numpy cannot concatenate a zip object, without one the empty plot raises.", "quantifier": "All objects, uncertainties, classes, filters, class sizes and norms.", "why_tests_cant": "For every state of the object and every choice of keywords.", "anchors": ["src/diffpy/srmise/src/diffpy/srmise/multimodelselection.py:ModelSelection.plot3dclassprobs"]}
{"id": "C213", "title": "Values and derivatives are restricted to the range asked for", "statement": "For an array r, value and jacobian return arrays as long as r: the function at the positions the slice selects (Python's rules, negative positions included), r*0.0, which is zero for finite r, elsewhere; columns of fixed parameters are None. A Python number is evaluated whatever the range. Exceptions of the function are passed on; after a TypeError the function is evaluated once more on all of r.", "quantifier": "All functions evaluated point by point, all r, all slices.", "why_tests_cant": "All slices including negative, empty and overlong ones, all lengths.", "anchors": ["src/diffpy/srmise/src/diffpy/srmise/basefunction.py:BaseFunction.value", "src/diffpy/srmise/src/diffpy/srmise/basefunction.py:BaseFunction.jacobian"]}
{"id": "C214", "title": "Every sequence and number may be used as r with a range", "statement": "value(p, r, rng) restricts the evaluation to rng for every array-like r. Violated: for a list the range is ignored, a numpy number with a range raises IndexError, and infinite members of r outside the range give NaN.", "quantifier": "All functions, all r, all slices.", "why_tests_cant": "For every kind of r.", "anchors": ["src/diffpy/srmise/src/diffpy/srmise/basefunction.py:BaseFunction.value", "src/diffpy/srmise/src/diffpy/srmise/basefunction.py:BaseFunction.jacobian"]}
{"id": "C215", "title": "Extraction leaves the user's baseline object alone", "statement": "If, with the baseline and the initial peaks taken off, the first data point of the range is not the highest one, extract_single() and extract() leave the content of the baseline object the user has set exactly as it was, whether they return or raise and whatever the fits do, and the extracted model holds a baseline object of its own.", "quantifier": "every data set, optimiser, baseline, initial peaks, resolution, with and without termination ripples and Nyquist sampling", "why_tests_cant": "Depends on which cluster absorbs which over the whole history of the extraction loop.", "anchors": ["src/diffpy/srmise/peakextraction.py:PeakExtraction.extract_single", "src/diffpy/srmise/pdfpeakextraction.py:PDFPeakExtraction.extract", "src/diffpy/srmise/modelcluster.py:ModelCluster.join_adjacent", "src/diffpy/srmise/modelcluster.py:ModelCluster.fit"]}
{"id": "C216", "title": "Extraction never changes the baseline setting", "statement": "extract() never changes the baseline the user has set, calling it again gives the same result, and the results PeakStability has stored do not change when further uncertainties are run. VIOLATED where the first point of the range is the highest one: the extracted model may then hold the user's own baseline object, which the last fit changes in place.", "quantifier": "every data set and optimiser", "why_tests_cant": "Only particular orders of clustering share the object.", "anchors": ["src/diffpy/srmise/peakextraction.py:PeakExtraction.extract_single", "src/diffpy/srmise/pdfpeakextraction.py:PDFPeakExtraction.extract", "src/diffpy/srmise/peakstability.py:PeakStability.run"]}
{"id": "C217", "title": "Uncertainties of nested searches", "statement": "A nested search uses the uncertainties handed to it when every one of them is positive; otherwise it uses, at every point, five percent of the difference between the largest and the smallest of its data.", "quantifier": "all data and uncertainties of a nested search", "why_tests_cant": "All data.", "anchors": ["src/diffpy/srmise/src/diffpy/srmise/peakextraction.py:PeakExtraction.defaultvars", "src/diffpy/srmise/src/diffpy/srmise/peakextraction.py:PeakExtraction.extract_single"]}
{"id": "C218", "title": "Extracted peaks are in order of position", "statement": "Whenever a fit is accepted the peaks are in order of position afterwards. The peaks found by extract_single() are in order of position, unless the last fit was undone (or not made, because all data are within their uncertainties) after a fit of the pruning was, too; those found by extract() of a PDF, unless its last fit was undone or not made.", "quantifier": "every data set, setting and optimiser", "why_tests_cant": "All inputs and fit outcomes.", "anchors": ["src/diffpy/srmise/src/diffpy/srmise/modelcluster.py:ModelCluster.fit", "src/diffpy/srmise/src/diffpy/srmise/peakextraction.py:PeakExtraction.extract_single", "src/diffpy/srmise/src/diffpy/srmise/pdfpeakextraction.py:PDFPeakExtraction.extract"]}
{"id": "C219", "title": "The traces an extraction makes", "statement": "During an extraction that succeeds, every call and every recursion level the tracer is told of is closed again, nothing is closed that was not opened, and at most three levels are open at a time; starting from a tracer that is not inside a call, the counters are 0 afterwards and the traces that pass the filter are added to its memory, numbered 0, 1, 2, ... The traces of a search at its own level are first its steps (fewer than there are points; each a list of models of disjoint, ascending, separate ranges of the data; the last a single model of all of it) and then the models tried by pruning, each with fewer peaks than the one before, the last of them the peaks the search returns (before the final fit). The last trace of extract() is the extracted model, at level 0.", "quantifier": "all data, initial peaks, baselines, peak functions, error methods and filters for which the extraction succeeds, whatever the fits return", "why_tests_cant": "the number of passes, recursions and prunings depends on the data and on every fit", "anchors": ["src/diffpy/srmise/src/diffpy/srmise/peakextraction.py: PeakExtraction.extract_single", "src/diffpy/srmise/src/diffpy/srmise/modelcluster.py: ModelCluster.prune", "src/diffpy/srmise/src/diffpy/srmise/pdfpeakextraction.py: PDFPeakExtraction.extract", "src/diffpy/srmise/src/diffpy/srmise/srmiselog.py: TracePeaks.pushc, popc, pushr, popr, emit"]}
{"id": "C220", "title": "Extraction is repeatable and stability runs do not depend on their history", "statement": "If the first point of the range is not the highest one (baseline and initial peaks taken off), or the baseline has no free parameter, then calling extract() again on the object it has left gives the same outcome and the same object; PeakStability.run stores for every uncertainty exactly the model, baseline and grid spacing that one call of extract() with this uncertainty and the extracter's original baseline gives, and leaves that baseline unchanged; so the result stored for an uncertainty is the same whatever other uncertainties were run before it, in this run or earlier ones, and wherever it stands in the list.", "quantifier": "all data, settings, lists of uncertainties, and earlier successful runs, whatever the fits return", "why_tests_cant": "depends on every earlier extraction through shared, mutable baseline and peak objects", "anchors": ["src/diffpy/srmise/src/diffpy/srmise/peakstability.py: PeakStability.run", "src/diffpy/srmise/src/diffpy/srmise/pdfpeakextraction.py: PDFPeakExtraction.extract", "src/diffpy/srmise/src/diffpy/srmise/peakextraction.py: PeakExtraction.extract_single"]}
{"id": "C221", "title": "ModelParts.fit keeps what extraction relies on", "statement": "Whatever scipy's leastsq does, the fit a cluster makes returns its peaks (and baseline) same in number and order, with their owners, free flags and switches, and with the parameters held fixed (up to the owner's normal form); a successful fit of numbers leaves numbers; if leastsq answers with numbers and the Jacobian exists, only SrMiseFitError is raised, except for an empty model without baseline: ValueError. Hence the search for peaks ends after at most three levels whatever leastsq does, with a model of removable peaks or with ValueError if leastsq is so and the initial peaks are removable, and an initial peak that is not removable is in the result with owner, flags and switches and, if held fixed, its parameters up to normal form.", "quantifier": "every model of parts, baseline, cluster, data and behaviour of leastsq", "why_tests_cant": "The optimiser may evaluate anything, raise anything and answer anything; the consequences run through the whole recursive extraction.", "anchors": ["src/diffpy/srmise/src/diffpy/srmise/modelcluster.py:ModelCluster.fit", "src/diffpy/srmise/src/diffpy/srmise/modelparts.py:ModelParts.fit", "src/diffpy/srmise/src/diffpy/srmise/peakextraction.py:PeakExtraction.extract_single"]}
{"id": "C222", "title": "AIC and AICc through fitting, pruning and augmenting", "statement": "With AIC or AICc as the error method, the quality of a cluster is the sum of squared (model - observed)/uncertainty plus twice the number k of free peak parameters (plus 2k(k+1)/(n-k-1) for AICc, n being at least k+2); an accepted fit never raises it; with justify a single peak is kept only if the parameters of one more peak could not lower it even by a perfect fit; pruning changes nothing or strictly lowers it, and augmenting never raises it, as long as no fit is undone.", "quantifier": "every cluster, data, models, optimiser and estimator; exact arithmetic", "why_tests_cant": "The claim is about every path through the nested searches and an arbitrary optimiser.", "anchors": ["src/diffpy/srmise/src/diffpy/srmise/modelcluster.py:ModelCluster.quality", "src/diffpy/srmise/src/diffpy/srmise/modelcluster.py:ModelCluster.prune", "src/diffpy/srmise/src/diffpy/srmise/modelcluster.py:ModelCluster.augment", "src/diffpy/srmise/src/diffpy/srmise/modelevaluators/aic.py:AIC.evaluate", "src/diffpy/srmise/src/diffpy/srmise/modelevaluators/aicc.py:AICc.evaluate"]}
{"id": "C223", "title": "Protected peaks survive a PDF extraction whatever leastsq does", "statement": "With peaks and baseline fitted by ModelParts.fit, for every behaviour of scipy's leastsq: every initial peak that is not removable is in the result of a successful PDFPeakExtraction.extract() with its free flags and switches, with its own peak function (no qmax, static owner, or already with ripples) or else with termination ripples added to it, and with unchanged parameters (up to the normal form) if all are held fixed. fit() returns initial peaks only: same function, flags, switches, fixed parameters up to the normal form, none added, only removable ones missing.", "quantifier": "all data, ranges, qmax, initial peaks, peak functions, estimates, statistics, and all answers, exceptions and intermediate parameter updates of leastsq", "why_tests_cant": "the optimiser's behaviour on every intermediate model cannot be enumerated", "anchors": ["src/diffpy/srmise/src/diffpy/srmise/pdfpeakextraction.py:PDFPeakExtraction.extract", "src/diffpy/srmise/src/diffpy/srmise/pdfpeakextraction.py:PDFPeakExtraction.fit", "src/diffpy/srmise/src/diffpy/srmise/modelparts.py:ModelParts.fit", "src/diffpy/srmise/src/diffpy/srmise/modelparts.py:ModelPart.changeowner", "src/diffpy/srmise/src/diffpy/srmise/peaks/terminationripples.py:TerminationRipples"]}
{"id": "C224", "title": "The trace filter is the conjunction of its expressions", "statement": "settracer(filter=[...]) with well-formed expressions is accepted; every emit then makes exactly one trace if all expressions are true at that time, and otherwise none: the first expression (in the given order) that is false stops silently, one that raises passes its exception on, and later expressions are not evaluated. The tracer made without a filter never makes a trace.", "quantifier": "every non-empty list of expressions over and, or, not, if-else and parentheses, every values or exceptions of the operands, every tracer state", "why_tests_cant": "Tests use one or two simple filters; the meaning of the joined text for every nesting of operators needs an argument about the grammar.", "anchors": ["src/diffpy/srmise/src/diffpy/srmise/srmiselog.py:TracePeaks.setfilter", "src/diffpy/srmise/src/diffpy/srmise/srmiselog.py:TracePeaks.emit", "src/diffpy/srmise/src/diffpy/srmise/srmiselog.py:settracer"]}
{"id": "C225", "title": "Every filter expression can only restrict", "statement": "Adding a text to the filter never makes more traces, a text that is not an expression is refused, and an empty list means no restriction. Violated: a text like 'a) or (b' is accepted, because the texts are pasted between parentheses, and makes a trace although another expression is false; an empty list is a SyntaxError.", "quantifier": "every tracer and every operands a, b, c", "why_tests_cant": "A test would have to contain exactly such a text.", "anchors": ["src/diffpy/srmise/src/diffpy/srmise/srmiselog.py:TracePeaks.setfilter"]}
{"id": "C226", "title": "An accepted fit leaves a clean, ordered model", "statement": "When fit() reports a new quality, the model holds exactly the peaks as the optimiser left them, in order of position, without those that have a NaN parameter (also if protected) and without removable peaks that lie before the first point, or at or behind the last point, of the cluster and stay below the uncertainty at every point; no other peak is lost.", "quantifier": "every cluster, optimiser outcome and fit option", "why_tests_cant": "A unit test sees one optimiser outcome; the claim is about all of them.", "anchors": ["src/diffpy/srmise/src/diffpy/srmise/modelcluster.py:ModelCluster.fit", "src/diffpy/srmise/src/diffpy/srmise/modelcluster.py:ModelCluster.cleanfit"]}
{"id": "C227", "title": "Clusters do not depend on units", "statement": "Measuring the coordinates in other units or from another origin (with the threshold in the same units), and changing the values in any way that keeps their order, changes nothing about clustering: construction succeeds or fails alike, and every sequence of next steps, resets and joins has the same outcomes, clusters, last point and last cluster; the nearest cluster to a point or coordinate is the same, at the rescaled distance.", "quantifier": "every data set with distinct values (or sorts that agree on equal values), threshold, positive factor, offset, strictly increasing change of the values and sequence of operations", "why_tests_cant": "A unit test compares one data set in two units; the claim is about all histories.", "anchors": ["src/diffpy/srmise/src/diffpy/srmise/dataclusters.py:DataClusters"]}
{"id": "C228", "title": "Estimates do not depend on units", "statement": "Measuring the intensities and the distances (with the maximal width) in other units changes an estimated peak only by the units: same error or the same peak with the position in the new units, the same fraction of the maximal width and the area times intensity unit times distance unit (squared for GaussianOverR); for Gaussian the distances may also be counted from another origin. An estimated polynomial baseline is the same curve in the new units.", "quantifier": "all data, maximal widths, degrees, positive factors and offsets (exact real arithmetic)", "why_tests_cant": "A unit test compares one data set in two units; the claim is about all of them.", "anchors": ["src/diffpy/srmise/src/diffpy/srmise/peaks/gaussianoverr.py:GaussianOverR.estimate_parameters", "src/diffpy/srmise/src/diffpy/srmise/peaks/gaussian.py:Gaussian.estimate_parameters", "src/diffpy/srmise/src/diffpy/srmise/baselines/polynomial.py:Polynomial.estimate_parameters"]}
{"id": "C229", "title": "Fits and comparisons do not depend on the unit of the intensities", "statement": "Giving intensities, uncertainties and the parameters that are proportional to intensity (areas of peaks, coefficients of a polynomial baseline, the scale of a nanospherical baseline) in another unit leaves the vector handed to the optimiser unchanged for every model, choice of free parameters, parameter vector and range: it is the same least-squares problem. AIC and AICc judge a model the same in any unit and for any order of the points: same quality, same errors, same answer of growth_justified.", "quantifier": "all models, free flags, parameter vectors, data with nonzero uncertainties, ranges and positive factors (exact real arithmetic)", "why_tests_cant": "A unit test compares one model in two units; the claim is about all of them.", "anchors": ["src/diffpy/srmise/src/diffpy/srmise/modelparts.py:ModelParts.residual", "src/diffpy/srmise/src/diffpy/srmise/modelevaluators/base.py:ModelEvaluator.chi_squared", "src/diffpy/srmise/src/diffpy/srmise/modelevaluators/aic.py:AIC", "src/diffpy/srmise/src/diffpy/srmise/modelevaluators/aicc.py:AICc"]}
{"id": "C230", "title": "In double precision, widths convert without NaN and stay within the allowed range", "statement": "Computed in binary64 arithmetic with rounding after every operation, a full width at half maximum between 0 and the maximal width is converted to the internal format of a Gaussian or GaussianOverR peak without NaN and without an error; every internal width parameter, however far out the optimiser has moved it, is converted to a finite width between 0 and the maximal width, which is accepted again; only widths above the maximum are refused.", "quantifier": "Every maximal width that is a double of at least 2^-400, every width, every internal parameter, every arcsin, every sin with values between -1 and 1.", "why_tests_cant": "Rounding could push an argument of arcsin above 1, a square root below 0 or a width one unit above the maximum for some rare doubles; the proof excludes all of them, a test can only sample.", "anchors": ["src/diffpy/srmise/src/diffpy/srmise/peaks/gaussianoverr.py: GaussianOverR._transform_parametersraw", "src/diffpy/srmise/src/diffpy/srmise/peaks/gaussian.py: Gaussian._transform_parametersraw"]}
{"id": "C231", "title": "In double precision, a width survives the internal format to a stated accuracy", "statement": "Computed in binary64 arithmetic with an arcsin and a sin accurate to d, the width obtained after conversion to the internal format and back differs from the original so that the squares differ by at most (d + 16*2^-53) times the square of the maximal width; the width itself differs by at most that bound divided by the width.", "quantifier": "Every maximal width that is a double of at least 2^-400, every width between 0 and it, every d up to 1/100.", "why_tests_cant": "An error bound over all doubles cannot be established by sampling.", "anchors": ["src/diffpy/srmise/src/diffpy/srmise/peaks/gaussianoverr.py: GaussianOverR._transform_parametersraw", "src/diffpy/srmise/src/diffpy/srmise/peaks/gaussian.py: Gaussian._transform_parametersraw"]}
{"id": "C232", "title": "A peak's width is recovered from every format (violated)", "statement": "Expectation: a peak accepted in one parameter format and written in another can be read back with its width. Violated in double precision: all widths up to 2^-29 of the maximal width share one internal value, and come back as width 0 when arcsin and sin are exact at the ends; and a peak at the maximal width, written as mu, sigma, area, may be refused when read back, because sigma times 2.3548... rounds above the maximum (maximal width 1.21875).", "quantifier": "Every maximal width that is a double of at least 2^-400, every arcsin and sin (first part); maximal width 1.21875 (second part).", "why_tests_cant": "Both failures concern isolated regions of the inputs which the tests' parameters do not meet.", "anchors": ["src/diffpy/srmise/src/diffpy/srmise/peaks/gaussianoverr.py: GaussianOverR._transform_parametersraw", "src/diffpy/srmise/src/diffpy/srmise/peaks/gaussian.py: Gaussian._transform_parametersraw"]}
{"id": "C233", "title": "Chi-square in double precision", "statement": "Computed in binary64 arithmetic, with the additions in any order and grouping, chi-square is a nonnegative number; it is 0 when every value equals its observation; it is at least the contribution of every single point; and if no intermediate result is subnormal it agrees with the exact chi-square up to a factor of (1 + 2^-52)^(n + 4) for n points.", "quantifier": "Every list of values, observations and error bars (whose squares do not vanish), every order and grouping of the additions.", "why_tests_cant": "numpy's order of summation depends on length and memory layout; error bounds over all data cannot be sampled.", "anchors": ["src/diffpy/srmise/src/diffpy/srmise/modelevaluators/base.py: ModelEvaluator.chi_squared"]}
{"id": "C234", "title": "AIC and AICc in double precision", "statement": "Computed in binary64 arithmetic, on the same number of points a model with at most as many parameters and at most as large a chi-square never has the larger AIC or AICc; more points never raise it; the statistic is never below chi-square, and AICc never below AIC; no growth is judged justified when chi-square is 0, and growth justified at one chi-square is justified at every larger one. As long as chi-square plus penalty stays below 2^52, one more parameter strictly raises AIC.", "quantifier": "Every number of parameters and points, every chi-square.", "why_tests_cant": "Rounding could invert a comparison for rare values; the claim excludes this for all of them.", "anchors": ["src/diffpy/srmise/src/diffpy/srmise/modelevaluators/aic.py: AIC.evaluate, AIC.parpenalty, AIC.growth_justified", "src/diffpy/srmise/src/diffpy/srmise/modelevaluators/aicc.py: AICc.evaluate, AICc.parpenalty, AICc.growth_justified"]}
{"id": "C235", "title": "Parameters always count (violated)", "statement": "Expectation: of two models with the same chi-square the one with fewer parameters has the lower AIC. Violated in double precision: from a chi-square of 2^56*(k+1) on (reached when error bars are tiny), the AIC of every model with at most k parameters is chi-square itself, so evaluators call them equal, while growth up to k parameters is judged justified.", "quantifier": "Every k, every number of points, every double chi-square from 2^56*(k+1) on.", "why_tests_cant": "Tests use chi-squares of ordinary size.", "anchors": ["src/diffpy/srmise/src/diffpy/srmise/modelevaluators/aic.py: AIC.evaluate, AIC.growth_justified"]}
{"id": "C236", "title": "Akaike weights and probabilities in double precision", "statement": "Computed in binary64 arithmetic, with the sum in any order and grouping: there is one weight and one probability for each model, all between 0 and 1; the models with the lowest statistic have weight exactly 1; a model with a lower statistic never has the lower weight or probability; the probabilities add up to 1 with an error of at most n*2^-53 + (1 + 2^-52)^(n-1) - 1.", "quantifier": "Every nonempty list of statistics, every order and grouping of the additions, every exponential that is 1 at 0, between 0 and 1 below it, and not decreasing.", "why_tests_cant": "Rounding errors over all lists cannot be sampled.", "anchors": ["src/diffpy/srmise/src/diffpy/srmise/modelevaluators/aic.py: AIC.akaikeweights, AIC.akaikeprobs", "src/diffpy/srmise/src/diffpy/srmise/modelevaluators/aicc.py: AICc.akaikeweights, AICc.akaikeprobs"]}
{"id": "C237", "title": "The clustering claims hold of doubles", "statement": "Doubles are numbered by integers in their order, each by exactly one, and every strictly increasing list of doubles by an increasing list of integers; under this numbering the rounded difference of two doubles is a function of the difference of their numbers which keeps order, is 0 only at 0, and commutes with multiplication by powers of two. So the claims on clustering, which are proved for integers and every rounding of this kind, hold of the x values of a data set as the code computes with them.", "quantifier": "All doubles (no overflow), all pairs of them, all powers of two with exponent at least 0.", "why_tests_cant": "Statement about all doubles.", "anchors": ["src/diffpy/srmise/src/diffpy/srmise/dataclusters.py: DataClusters.next, DataClusters.find_nearest_cluster"]}
{"id": "C238", "title": "Peak values in double precision", "statement": "Computed in binary64 arithmetic, a Gaussian whose internal width parameter does not have sine -1 has a nonnegative finite value at every point, never NaN; its value at its position is its largest, it is never larger at a point farther from its position, and a larger area never gives a smaller value. A GaussianOverR has a nonnegative finite value at every point at least 2^-400 away from 0 and never rises to the right of a positive position.", "quantifier": "Every maximal width that is a double of at least 2^-400, every position, area, point and width parameter, every sine with values between -1 and 1, every exponential that is between 0 and 1 and not decreasing on negative numbers.", "why_tests_cant": "Rounding errors at arbitrary parameters cannot be sampled exhaustively.", "anchors": ["src/diffpy/srmise/src/diffpy/srmise/peaks/gaussian.py: Gaussian._valueraw", "src/diffpy/srmise/src/diffpy/srmise/peaks/gaussianoverr.py: GaussianOverR._valueraw"]}
{"id": "C239", "title": "A peak of positive width has a value (violated)", "statement": "Expectation: a peak whose positive width is accepted has a number as its value at every point. Violated in double precision: a Gaussian or GaussianOverR peak at most 2^-29 times as wide as the maximal width gets an internal parameter at which every value is a division by zero.", "quantifier": "Every maximal width that is a double of at least 2^-400, every width up to 2^-29 of it, every position, area and point (the sine of arcsin(-1) being -1).", "why_tests_cant": "Tests use widths of ordinary size.", "anchors": ["src/diffpy/srmise/src/diffpy/srmise/peaks/gaussian.py: Gaussian._valueraw, Gaussian._transform_parametersraw", "src/diffpy/srmise/src/diffpy/srmise/peaks/gaussianoverr.py: GaussianOverR._valueraw, GaussianOverR._transform_parametersraw"]}
{"id": "C240", "title": "Order of models in double precision", "statement": "Computed in binary64 arithmetic, AIC and AICc differ from the exact criterion by at most a factor of 1 + (n + 5) * 2^-51; a model that is judged at least as good as another has an exact criterion at most 1 + (n + n' + 10) * 2^-51 times that of the other, and a model whose criterion is lower by more than that factor is judged better; n and n' are the numbers of points. Whether more parameters are justified is decided as in exact arithmetic unless the criterion is within a factor of 1 + (n + 9) * 2^-51 of the penalty for the enlarged number of parameters.", "quantifier": "Every pair of models with up to 2^50 free parameters and up to 2^49 points whose error bars, deviations, their squares and quotients are 0 or not subnormal, every order and grouping of the additions of chi-square.", "why_tests_cant": "Accumulated rounding errors depend on all data and on the order of summation.", "anchors": ["src/diffpy/srmise/src/diffpy/srmise/modelevaluators/base.py: ModelEvaluator.chi_squared, __lt__", "src/diffpy/srmise/src/diffpy/srmise/modelevaluators/aic.py: AIC.evaluate, parpenalty", "src/diffpy/srmise/src/diffpy/srmise/modelevaluators/aicc.py: AICc.evaluate, parpenalty"]}
{"id": "C241", "title": "Fits judged in double precision", "statement": "With AIC or AICc computed in binary64 arithmetic, a fit that reports a quality leaves the cluster with a computed criterion not above that of the cluster (or its estimated peak) it started from, and with an exact criterion at most 1 + (n + n' + 10) * 2^-51 times that one. With justify, a single peak is kept only if its exact criterion is at most that of a perfect fit with the smallest number of additional parameters, times 1 + (n + 9) * 2^-51, or there are too few points for so many parameters.", "quantifier": "Every cluster, every result of the optimiser, every justify, ntrials, fitbaseline and estimate, every order and grouping of the additions of chi-square, data without subnormal intermediate results.", "why_tests_cant": "Every outcome of the optimiser and every rounding must be covered.", "anchors": ["src/diffpy/srmise/src/diffpy/srmise/modelcluster.py: ModelCluster.fit, ModelCluster.quality", "src/diffpy/srmise/src/diffpy/srmise/modelevaluators/aic.py: AIC.evaluate", "src/diffpy/srmise/src/diffpy/srmise/modelevaluators/aicc.py: AICc.evaluate"]}
{"id": "C242", "title": "Polynomial baselines in double precision", "statement": "Computed in binary64 arithmetic, a polynomial baseline without parameters is 0, its value at 0 is exactly its last parameter, and for nonnegative r its value never decreases when a parameter grows. With nonnegative parameters its value is nonnegative, never decreases with r, and without underflow differs from the exact polynomial by at most a factor of 1 + n * 2^-50, n the number of parameters.", "quantifier": "Every number of parameters, every parameters that are doubles, every nonnegative r.", "why_tests_cant": "Rounding errors at arbitrary parameters cannot be sampled exhaustively.", "anchors": ["src/diffpy/srmise/src/diffpy/srmise/baselines/polynomial.py: Polynomial._valueraw"]}
{"id": "C243", "title": "Nanoparticle baselines in double precision", "statement": "Computed in binary64 arithmetic, a spherical nanoparticle baseline is exactly 0 outside the interval from 0 to twice its radius, and inside it differs from the exact value by at most |scale| * r * 2^-49.", "quantifier": "Every scale, every positive radius that is a double, every r (for the bound, |scale| * r at least 2^-900).", "why_tests_cant": "The formula cancels near twice the radius, where sampled tests with ordinary tolerances see nothing.", "anchors": ["src/diffpy/srmise/src/diffpy/srmise/baselines/nanospherical.py: NanoSpherical._valueraw, _valueraw2"]}
{"id": "C244", "title": "Nanoparticle baselines are never positive (violated)", "statement": "Expectation: like its exact value, the computed value of a spherical nanoparticle baseline is never positive. Violated in double precision: three units in the last place below twice the radius cancellation leaves a positive value (at most about |scale| * radius * 2^-53).", "quantifier": "Every scale of at least 2^-400 in absolute value, every radius that is a power of two from 2^-400 to 2^400.", "why_tests_cant": "A single double per radius shows it; sampled tests do not hit it.", "anchors": ["src/diffpy/srmise/src/diffpy/srmise/baselines/nanospherical.py: NanoSpherical._valueraw2"]}
{"id": "C245", "title": "Residuals in double precision", "statement": "Computed in binary64 arithmetic, the residual at a point is 0 where the model equals the data, never has the wrong sign and never grows with the calculated value; the sum of its squares, which the optimiser minimises, and the chi-square by which the evaluators judge the result are each at most 1 + (2n + 8) * 2^-51 times the other.", "quantifier": "Every calculated and observed value, every positive uncertainty; for the sums, every n points whose intermediate results are 0 or not subnormal and every order and grouping of the additions in both.", "why_tests_cant": "The two computations round differently at every point.", "anchors": ["src/diffpy/srmise/src/diffpy/srmise/modelparts.py: ModelParts.residual, ModelParts.fit", "src/diffpy/srmise/src/diffpy/srmise/modelevaluators/base.py: ModelEvaluator.chi_squared"]}
{"id": "C246", "title": "Totals of models in double precision", "statement": "Computed in binary64 arithmetic, the total value of n parts at a point is off by at most the total of their absolute values times n * 2^-51 and never lower when values of parts grow; that of no parts is 0. If no part is negative the total is at least the value of each part, further parts never lower it, it is off by at most a factor of 1 + n * 2^-51, and the order of the parts changes it by at most a factor of 1 + 2n * 2^-51.", "quantifier": "Every number of parts up to 2^49, every finite values, every order.", "why_tests_cant": "Rounding errors depend on all values and their order.", "anchors": ["src/diffpy/srmise/src/diffpy/srmise/modelparts.py: ModelParts.value"]}
{"id": "C247", "title": "Uncertainties and correlations in double precision", "statement": "Computed in binary64 arithmetic, an uncertainty is a nonnegative double, never smaller for a larger variance, and off by at most a factor of 1 + 2^-51. A correlation is exactly symmetric, 0 if a variance is 0, and never of the wrong sign; unless it is subnormal or a variance is below 2^-1000, it is off by at most a factor of 1 + 2^-49, and so at most 1 + 2^-49 for a covariance matrix.", "quantifier": "All doubles: nonnegative variances, any covariance.", "why_tests_cant": "Rounding errors depend on all values.", "anchors": ["src/diffpy/srmise/src/diffpy/srmise/modelcluster.py: ModelCovariance.getcorrelation, ModelCovariance.getuncertainty"]}
{"id": "C248", "title": "A correlation is between -1 and 1 (violated)", "statement": "Expectation: a correlation computed in double precision from a covariance matrix is between -1 and 1. Violated: the correlation with itself of a variable with variance 3 is 1 + 2^-52.", "quantifier": "All doubles with covariance^2 at most the product of the variances.", "why_tests_cant": "Most variances give at most 1: whether the bound is met depends on the values.", "anchors": ["src/diffpy/srmise/src/diffpy/srmise/modelcluster.py: ModelCovariance.getcorrelation"]}
{"id": "C249", "title": "Correlations do not depend on binary units", "statement": "In double precision, changing the units of two quantities by powers of two multiplies the uncertainties by exactly those factors and changes no bit of the correlation, as long as no variance is below 2^-1000 before or after.", "quantifier": "All doubles: variances, every covariance, all powers of two.", "why_tests_cant": "Holds for every value and unit, and only exactly because every rounding commutes with the change of units.", "anchors": ["src/diffpy/srmise/src/diffpy/srmise/modelcluster.py: ModelCovariance.getcorrelation, ModelCovariance.getuncertainty"]}

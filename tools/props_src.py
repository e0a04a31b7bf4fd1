# ---------------------------------------------------------------- hubness()
p("C01", "k-occurrences are conserved",
  "hubness(D, k, metric) on an n x m matrix returns an occurrence vector N_k with exactly m entries, each between 0 and n, whose sum is n*min(k, m-1): every query contributes exactly that many neighbour slots, none lost or invented.",
  "all matrices of float64 (NaN and infinities included) of every size n x m, every k >= 1, both metrics, every random shuffle and every argpartition result NumPy's contract allows",
  "The claim ranges over all matrix contents and over the tie-breaking freedom of argpartition and of the random permutations; tests see one matrix, one NumPy build and one seed.",
  ["hub_toolbox/hubness.py:hubness", "hub_toolbox/hubness.py:_hubness_no_multiprocessing", "hub_toolbox/hubness.py:_hubness_nearest_neighbors"])
p("C02", "reported neighbours are k nearest neighbours, nearest first",
  "For a square matrix, row i of the neighbour array returned by hubness holds min(k, m-1) distinct indices; the values along the row are in nearest-first order; and no point left out is strictly nearer than a listed one (after the documented replacement of self and non-finite values by the worst value). For similarities 'nearer' means larger.",
  "all square float64 matrices, all k, both metrics, all shuffles, every argpartition that meets NumPy's contract",
  "Correct selection must hold for every value pattern including ties, infinities and NaN and every admissible partition result.",
  ["hub_toolbox/hubness.py:hubness", "hub_toolbox/hubness.py:_hubness_nearest_neighbors"])
p("C03", "a point is never its own neighbour",
  "If row i of a square matrix has at least min(k, m-1) finite off-diagonal entries then i does not occur among the neighbours hubness reports for i; moreover no non-finite entry is reported while a finite one is available.",
  "all square float64 matrices, any diagonal, all k, both metrics, all shuffles and partitions",
  "A counterexample could hide in any value pattern on the diagonal (0, NaN, inf) or any tie order.",
  ["hub_toolbox/hubness.py:hubness", "hub_toolbox/hubness.py:_hubness_no_multiprocessing"])
p("C04", "hubness with worker processes equals serial hubness under every schedule",
  "For square matrices, and for distances of any shape, the neighbour array produced with n_jobs > 1 (rows handed to workers that write into one shared buffer) equals the serial result, whatever the interleaving of the workers' writes.",
  "all matrices, k, worker counts and all interleavings of the writes of all row tasks",
  "A test observes one schedule per run; the claim is about every interleaving.",
  ["hub_toolbox/hubness.py:hubness", "hub_toolbox/hubness.py:_load_shared_data", "hub_toolbox/hubness.py:_hubness_nearest_neighbors"])
p("C05", "DEFECT: serial hubness of rectangular similarities is not top-k",
  "With n_jobs=1 and metric='similarity' the partition positions are computed from the number of rows n instead of the number of columns m. For every n > m (m >= 2, k >= 1) the call raises ValueError; for n < m there are matrices for which the returned neighbours are not the most similar ones and differ from the n_jobs=2 result. For distances and for square matrices serial and parallel code select the same ranks.",
  "all n, m with n > m for the exception; a witness for n < m; all square matrices for the agreement",
  "Existing tests only use square matrices; the claim separates all shapes into those that work and those that fail.",
  ["hub_toolbox/hubness.py:_hubness_no_multiprocessing", "hub_toolbox/hubness.py:hubness"])
p("C06", "random tie breaking only matters for ties",
  "If the finite values of each row without the self distance are pairwise different and at least min(k, m-1) of them exist, the neighbour array and N_k returned by hubness do not depend on the random permutations nor on which contract-abiding argpartition is used, so shuffle_equal and random_state have no effect.",
  "all square matrices without ties in a row, all pairs of shuffles, all pairs of partition implementations",
  "Independence of an unobservable choice (RNG, introselect internals) is a relation between two executions for all inputs.",
  ["hub_toolbox/hubness.py:hubness"])
# ---------------------------------------------------------------- Mutual proximity
p("C07", "MP (distance) computes its documented formula, symmetric, zero self distance",
  "mutual_proximity_empiric(D, 'distance') returns an n x n matrix with M[i,j] = 1 - #{x : D[i,x] > D[j,i] and D[j,x] > D[j,i], x different from i and j}/n for i<j, M[j,i] bit-identical to M[i,j], and M[i,i] = 0.",
  "all square float64 matrices of every size up to 2^53 (any diagonal, NaN and infinities included)",
  "The count formula must hold for every size and every value pattern; in-place accumulation and mirroring bugs show up only at particular sizes or values.",
  ["hub_toolbox/global_scaling.py:_mutual_proximity_empiric_full", "hub_toolbox/global_scaling.py:mutual_proximity_empiric"])
p("C08", "MP values lie in [0,1]",
  "All values returned by dense empiric MP are in [0,1] in float64 arithmetic (rounding included), for distances and for similarities; off the diagonal distances are strictly positive and similarities (for finite inputs) strictly below 1, so no point becomes indistinguishable from another one by rescaling.",
  "all square float64 matrices of size up to 2^53, both metrics",
  "Range under rounding for all sizes is a statement about every division n can produce.",
  ["hub_toolbox/global_scaling.py:_mutual_proximity_empiric_full"])
p("C09", "MP depends only on the order of the input values",
  "Applying any function to the matrix entries that preserves and reflects the order < on them (e.g. a strictly increasing rescaling) leaves the empiric MP matrix bit-for-bit unchanged, for distances and for similarities below infinity.",
  "all pairs of order-equivalent float64 matrices",
  "Relates two runs on arbitrary pairs of inputs.",
  ["hub_toolbox/global_scaling.py:_mutual_proximity_empiric_full"])
p("C10", "MP of distances and of similarities are complementary exactly when there are no ties",
  "If S reverses the order of D and each off-diagonal value occurs in no other off-diagonal position of its row or of the row it is compared against, then #-counts agree so that MP_sim(S) = 1 - MP_dist(D) off the diagonal; with ties the two differ (strict > for distances versus <= for similarities) and a concrete matrix shows it.",
  "all order-reversing pairs without ties; one witness with ties",
  "The unit test checks one random matrix without ties; the claim is for all and delimits where it breaks.",
  ["hub_toolbox/global_scaling.py:_mutual_proximity_empiric_full"])
p("C11", "sample MP with the whole population as sample equals full MP",
  "mutual_proximity_empiric(D, sample_ind=arange(n)) returns the same matrix as mutual_proximity_empiric(D) for every symmetric D; for any sample, entry (i,j) is 1 - #{x: D[i,x] > D[i,j] and D[idx_j,x] > D[i,j]}/s with self entries excluded, and the entry comparing a point with itself is exactly the self value.",
  "all symmetric float64 matrices; all sample index vectors",
  "Agreement of two separately coded algorithms on all inputs.",
  ["hub_toolbox/global_scaling.py:_mutual_proximity_empiric_sample", "hub_toolbox/global_scaling.py:_mutual_proximity_empiric_full"])
p("C12", "sparse MP agrees with dense MP when self similarities dominate",
  "For a symmetric similarity matrix with non-negative values whose self similarities exceed every other value of their row, and with all rows above the min_nnz threshold, sparse empiric MP stores at every stored non-zero position the value dense empiric similarity MP has there, and stores nothing elsewhere: equal in exact arithmetic, within 2^-51 in float64 (the sparse code computes 1-(n-c)/n, the dense code c/n, and a 3x3 matrix shows they are not bit-identical). The result does not depend on the worker schedule. If an off-diagonal similarity equals the self similarity the two can be as far apart as 0 and 1 (witness).",
  "all sparse symmetric matrices with such values, all sizes up to 2^53, all worker schedules",
  "Two different counting algorithms (dense mask versus sparse row arithmetic) agree on all inputs.",
  ["hub_toolbox/global_scaling.py:_mutual_proximity_empiric_sparse", "hub_toolbox/global_scaling.py:_mutual_proximity_empiric_sample"])
p("C13", "DEFECT: integer test indices are silently ignored by MP",
  "mutual_proximity_empiric(D, test_ind=a) with an integer index array that does not contain -1 returns exactly the result of the call without test_ind (nothing is held out and no error is raised); a boolean mask with at least one True raises NotImplementedError, and an all-False mask is accepted.",
  "all matrices and all integer index arrays / boolean masks",
  "Universal over index arrays; a test would have to guess the failing representation.",
  ["hub_toolbox/global_scaling.py:_mutual_proximity_empiric_full"])
# ---------------------------------------------------------------- SNN
p("C14", "SNN computes 1 - overlap/k, symmetric, self value exact, range [0,1]",
  "shared_nearest_neighbors(D,k,'distance') returns for i != j the value 1 - |N(i) & N(j)|/k where N(x) is a set of exactly k nearest points of x; the matrix is symmetric bit-for-bit, has 0 on the diagonal, and every value is in [0,1]. For 'similarity' it is |N(i) & N(j)|/k with 1 on the diagonal.",
  "all square float64 matrices, every 0 < k < n, both metrics, every contract-abiding argpartition",
  "Holds for all values and tie-breakings.",
  ["hub_toolbox/shared_neighbors.py:shared_nearest_neighbors", "hub_toolbox/shared_neighbors.py:_snn_my_hood", "hub_toolbox/shared_neighbors.py:_snn_our_hood"])
p("C15", "parallel SNN equals serial SNN under every schedule",
  "The two parallel phases (k-NN sets, then secondary distances) write every cell of the shared buffers exactly with the value the serial code produces, for every interleaving of the workers.",
  "all inputs and all interleavings",
  "Quantifies over schedules.",
  ["hub_toolbox/shared_neighbors.py:shared_nearest_neighbors"])
p("C16", "DEFECT: sample variants put the self distance in the wrong cell",
  "snn_sample, local_scaling_sample and nicdm_sample called with train_ind and without test_ind write the self value on the geometric diagonal (j,j) instead of the cells (train_ind[j], j): cell (j,j) holds the self value for every j < s, even when train_ind[j] != j, and a true self cell outside the diagonal gets the ordinary secondary value instead of the self value (for SNN that value happens to be right, for local scaling and NICDM it is computed from the self distance entry). When train_ind = arange(s) the result is correct.",
  "all matrices and all training index vectors",
  "Existing tests use train_ind = arange(s) only.",
  ["hub_toolbox/shared_neighbors.py:snn_sample", "hub_toolbox/local_scaling.py:local_scaling_sample", "hub_toolbox/local_scaling.py:nicdm_sample"])
# ---------------------------------------------------------------- Goodman-Kruskal
p("C17", "fast Goodman-Kruskal index equals the definition",
  "goodman_kruskal_index(D, classes, metric) equals (Qc-Qd)/(Qc+Qd) computed from all quadruples (concordant minus discordant pairs of a within-class and a between-class distance, ties dropped), i.e. the same value as the naive quadruple loop, for every symmetric matrix without NaN, and is 0 when there is no comparable pair.",
  "all symmetric float64 matrices of any size with at most 2^53 comparable quadruples, all label vectors",
  "An O(n^2 log n) counting algorithm against its O(n^4) definition on all inputs including ties.",
  ["hub_toolbox/goodman_kruskal.py:goodman_kruskal_index", "hub_toolbox/goodman_kruskal.py:_naive_goodman_kruskal"])
p("C18", "Goodman-Kruskal index is in [-1,1], antisymmetric in the metric, and order invariant",
  "The index lies in [-1,1]; switching metric between 'distance' and 'similarity' on the same matrix negates it; it is unchanged by any strictly increasing transformation of the matrix and by any injective renaming of the classes.",
  "all symmetric float64 matrices with at most 2^53 comparable quadruples and label vectors, all order-preserving transformations, all injective relabelings",
  "Relational and universal.",
  ["hub_toolbox/goodman_kruskal.py:goodman_kruskal_index"])
p("C19", "sparse Goodman-Kruskal equals dense for non-negative similarities, and not otherwise",
  "For symmetric similarity matrices with non-negative entries the sparse index (zeros counted as similarity 0) equals the dense similarity index; for negative entries it does not (witness).",
  "all non-negative symmetric float64 matrices with at most 2^53 comparable quadruples and label vectors; a witness with a negative value",
  "Equivalence of two implementations over all sparsity patterns.",
  ["hub_toolbox/goodman_kruskal.py:sparse_goodman_kruskal_index", "hub_toolbox/goodman_kruskal.py:goodman_kruskal_index"])
# ---------------------------------------------------------------- kNN
p("C20", "accuracy, correctness flags and confusion matrix of score() describe the same predictions",
  "For each k: the confusion matrix entries sum to the number of evaluated points, its row sums are the class counts of the evaluated points, the number of True correctness flags equals its trace, and the accuracy is the float64 accumulation of 1/n that many times.",
  "all square matrices, labels, lists of k, both metrics, all random permutations and argsort results",
  "Universal over inputs and nondeterminism.",
  ["hub_toolbox/knn_classification.py:score"])
p("C21", "DEFECT: accuracy can exceed 1 through accumulated rounding",
  "The reported accuracy is built by adding 1/n once per correct point. For 9 points that are all classified correctly the reported float64 accuracy is strictly greater than 1; in exact arithmetic it would be exactly (number correct)/n, which is at most 1.",
  "a witness in float64; all inputs for the exact-arithmetic bound",
  "Only particular n trigger it and tests compare with a tolerance.",
  ["hub_toolbox/knn_classification.py:score"])
p("C22", "no label leakage in leave-one-out classification",
  "If every k-neighbourhood considered for point i contains a finite value, then the class predicted for i does not depend on the label of i: changing only the label of i (keeping the set of classes) leaves its prediction unchanged.",
  "all matrices, all labelings differing only at i, all permutations and argsort results",
  "Non-interference over pairs of runs.",
  ["hub_toolbox/knn_classification.py:score"])
p("C23", "a strict majority among the k nearest finite neighbours wins; ties follow the single nearest neighbour",
  "The predicted class is the unique most frequent class among the finite k nearest neighbours if there is a unique one; otherwise it is the class of the first neighbour. DEFECT: in the tied case the winner need not be one of the tied classes (witness with neighbour classes A,B,B,C,C giving A).",
  "all neighbour class sequences",
  "Universal over vote patterns.",
  ["hub_toolbox/knn_classification.py:score", "hub_toolbox/knn_classification.py:predict"])
p("C24", "DEFECT: score(test_set_ind=...) trains on the wrong points",
  "With an integer test_set_ind of size t, only points with index below t (and not in the test set) can vote, whatever the size of D. In particular with test_set_ind = [0..t-1] nobody votes and every test point gets the last class, even if D and labels make the problem trivially separable.",
  "all matrices, labels and test index sets",
  "The effective training set is characterised for all inputs.",
  ["hub_toolbox/knn_classification.py:score"])
p("C25", "F-measures are consistent with confusion counts",
  "f1_score(cmat) is 0 if TP=0 and otherwise 2TP/(2TP+FP+FN); it is always in [0,1]; micro F1 of a partition of counts is the F1 of the summed table; macro and weighted F1 are averages of F1 values and lie in [0,1].",
  "all 2x2 count tables and all non-empty stacks of them",
  "Universal over tables.",
  ["hub_toolbox/knn_classification.py:f1_score", "hub_toolbox/knn_classification.py:f1_macro", "hub_toolbox/knn_classification.py:f1_micro", "hub_toolbox/knn_classification.py:f1_weighted"])
p("C26", "DEFECT: predict with a test index always fails",
  "predict(D, target, test_ind=anything but None) raises UnboundLocalError for every otherwise valid input; predict without test_ind never does.",
  "all inputs",
  "Universal over inputs.",
  ["hub_toolbox/knn_classification.py:predict"])
# ---------------------------------------------------------------- LS / NICDM
p("C27", "local scaling computes its formula on the k-th nearest neighbour radius",
  "local_scaling(D,k) gives L[i,j] = 1 - exp(-D[i,j]^2/(r_i r_j)) for i<j with r_i the k-th smallest entry of row i without the self entry; L is symmetric, has 0 on the diagonal and, if all radii are positive, every entry is in [0,1).",
  "all square matrices with finite non-negative off-diagonal entries, every 1 <= k < n, every contract-abiding partition",
  "All inputs and all partitions.",
  ["hub_toolbox/local_scaling.py:local_scaling", "hub_toolbox/local_scaling.py:_ls_calculate_r", "hub_toolbox/local_scaling.py:_ls_calculate_sec_dist"])
p("C28", "local scaling is scale free, NICDM scales linearly",
  "Multiplying all distances by c > 0 leaves the local scaling result unchanged and multiplies the NICDM result by c.",
  "all matrices with positive radii, all c > 0",
  "Relates pairs of runs for all c.",
  ["hub_toolbox/local_scaling.py:local_scaling", "hub_toolbox/local_scaling.py:nicdm"])
p("C29", "parallel local scaling equals serial local scaling under every schedule",
  "With n_jobs > 1 the workers write row and column slices of one shared matrix; the final matrix equals the serial result for every interleaving.",
  "all inputs, all interleavings of all writes",
  "Quantifies over schedules.",
  ["hub_toolbox/local_scaling.py:local_scaling", "hub_toolbox/local_scaling.py:nicdm"])
p("C30", "DEFECT: local scaling of similarities reverses their order",
  "With metric='similarity' and fixed positive radii, of two non-negative similarities the larger one gets the smaller local scaling similarity.",
  "all non-negative similarities and radii",
  "The unit test passes because its similarities are all negative; universal statement shows the direction.",
  ["hub_toolbox/local_scaling.py:local_scaling"])
p("C31", "DEFECT: duplicate points make local scaling undefined",
  "If two points coincide (distance 0) and both have a zero k-th neighbour radius, or one has a zero radius and the other a finite one, the local scaling distance between them is NaN instead of 0.",
  "all matrices with such a pair",
  "Arises only for inputs with duplicates.",
  ["hub_toolbox/local_scaling.py:local_scaling"])
p("C32", "NICDM is symmetric, non-negative and zero on the diagonal",
  "nicdm(D,k) gives N[i,j] = g * D[i,j]/sqrt(r_i r_j) for i<j with r_i the mean of the k smallest other entries of row i and g the geometric mean of all radii; N is symmetric with zero diagonal and non-negative.",
  "all square matrices with positive radii, every 1 <= k < n, every contract-abiding partition",
  "All inputs and partitions.",
  ["hub_toolbox/local_scaling.py:nicdm"])
# ---------------------------------------------------------------- Centering etc
p("C33", "centering removes the mean, and kernel centering equals vector centering",
  "centering(X,'vector') has column means zero, is idempotent and invariant under translating all points; centering of the Gram matrix ('kernel') equals the Gram matrix of the centred vectors.",
  "all real data matrices of every shape with at least one row",
  "Algebraic identities over all matrices.",
  ["hub_toolbox/centering.py:centering"])
p("C34", "weighted centering: gamma = 0 is plain centering; DEFECT: held-out rows still contribute",
  "weighted_centering with gamma=0 and no test mask equals centering; with metric 'euclidean' every gamma gives plain centering (unless all training rows are zero); with a test mask the subtracted mean still depends on the held-out rows (witness), contrary to the documentation.",
  "all data matrices; all gamma for the euclidean case",
  "Universal algebraic identity plus a witness.",
  ["hub_toolbox/centering.py:weighted_centering"])
p("C35", "global DisSim equals -2<x-c, y-c>",
  "dis_sim_global(X,Y) returns -2 times the inner product of the mean-centred vectors, is invariant under translating all points, and raises ValueError on differing dimension.",
  "all real matrices",
  "Algebraic identity on all inputs.",
  ["hub_toolbox/centering.py:dis_sim_global"])
p("C36", "localized centering with kappa = n ranks like standard centering",
  "With kappa = n and gamma = 1 the localized centering similarities differ, within each row, from the cosine similarities by the affinity to the centroid, so differences inside a row equal those of the centred inner products.",
  "all data matrices with non-zero rows",
  "Algebraic identity on all inputs.",
  ["hub_toolbox/centering.py:localized_centering"])
p("C37", "cosine distance is a proper dissimilarity matrix",
  "cosine_distance(X) is symmetric, zero on the diagonal, within [0,2], and unchanged when rows are multiplied by positive factors, for every X without zero rows.",
  "all real matrices without zero rows, all positive factors",
  "Cauchy-Schwarz for all vectors.",
  ["hub_toolbox/distances.py:cosine_distance"])
# ---------------------------------------------------------------- concurrency helper, io, analysis
p("C38", "the synchronised progress counter never loses or duplicates a value",
  "In every interleaving of the lock, read, write and unlock steps of any number of processes, with process deaths at any point, the returned values are those of performing the finished calls one after the other; values returned by increments are pairwise distinct while the counter moves by less than 2^32; when all calls have returned the counter holds the initial value plus all increments; unless a process dies inside a call the remaining calls can always finish, and if one does, no later call returns.",
  "all numbers of processes, programs of calls, interleavings and crash points",
  "Requires reasoning about all schedules and crash points.",
  ["hub_toolbox/utils.py:SynchronizedCounter"])
p("C39", "shape and parameter checks accept exactly the documented inputs",
  "The io check functions raise (the documented exception type) exactly when the shapes violate the documented relation, for arrays of any dimension and for non-arrays.",
  "all shapes (any number of dimensions), all metric strings",
  "Universal over shapes and strings.",
  ["hub_toolbox/io.py:check_is_nD_array", "hub_toolbox/io.py:check_distance_matrix_shape", "hub_toolbox/io.py:check_sample_shape_fits", "hub_toolbox/io.py:check_valid_metric_parameter"])
p("C40", "sparse matrix save/load round trip; DEFECT: it fails for file names without .npz",
  "For a file name ending in .npz, load_csr_matrix(save_csr_matrix(f, M)) has the same shape, row pointers and dense contents as M (and the same data and indices if M has no unused storage). For every other name the data are written to f.npz while f is returned, so loading raises FileNotFoundError or returns what was stored under f before.",
  "all well-formed CSR matrices, all file names and file system contents",
  "Universal over matrices and names; the only unit test uses a .npz suffix.",
  ["hub_toolbox/io.py:save_csr_matrix", "hub_toolbox/io.py:load_csr_matrix"])
p("C41", "HubnessAnalysis accumulates experiments in call order",
  "A sequence of analyze_hubness calls leaves self.experiments equal to the concatenation, in order, of one experiment per comma separated name of each call; a name that is not supported raises ValueError and leaves exactly the experiments before it; stored inputs are never modified.",
  "all call histories with all name lists",
  "Quantifies over call histories.",
  ["hub_toolbox/hubness_analysis.py:HubnessAnalysis", "hub_toolbox/hubness_analysis.py:HubnessExperiment"])
# ---------------------------------------------------------------- Hubness class
p("C42", "the three Gini index algorithms agree and stay in [0,1)",
  "Hubness._gini_index gives the same value for every string passed as limiting ('memory', 'cpu' and the naive fallback): the sum of |x-y| over all ordered pairs divided by 2*n*sum. For non-negative occurrences with positive sum (2*n*sum at most 2^53 for the claims about the float) the exact value is in [0, 1-1/n], the float is below 1, and it is 0 exactly if all occurrences are equal.",
  "all occurrence vectors of every length",
  "Equality of a quadratic and two vectorised formulas on all inputs.",
  ["hub_toolbox/hubness.py:Hubness._gini_index"])
p("C43", "hubness measures of the Hubness estimator are in range",
  "After fit_transform the neighbour lists hold k distinct training points per query, the k-occurrence counts them and sums to n_test*k; antihubs_ are exactly the points without occurrences, hubs_ exactly those with at least hub_size*k occurrences; antihub_occurrence_, hub_occurrence_ and groupie_ratio_ are the rounded fractions they are named after and lie in [0,1]; the Robin-Hood index lies in [0,1-1/n] and is 0 only for equal occurrences, the Atkinson index lies in [0,1).",
  "all inputs (vectors, dense or sparse distances), k, hub sizes, batch sizes, worker counts and schedules",
  "Universal over vectors.",
  ["hub_toolbox/hubness.py:Hubness"])
p("C44", "Hubness estimator rejects exactly the invalid constructor parameters",
  "The constructor raises ValueError if and only if k < 1, hub_size <= 0, the metric is not euclidean, cosine or precomputed, a return flag is not a bool, n_jobs is 0 or below -1, verbose < 0, or random_state is not a valid seed; otherwise it stores n_jobs, with -1 replaced by the number of CPUs.",
  "all parameter combinations",
  "Universal over parameter space.",
  ["hub_toolbox/hubness.py:Hubness.__init__"])
p("C45", "k-nearest-neighbour search of the Hubness estimator is independent of batching",
  "For every batch size >= 1, every number of worker processes and every schedule, fit_transform on vectors ends with the same result (value or exception); with training vectors Y it lists the k nearest of them for each query. Batch size 0 raises ZeroDivisionError.",
  "all vectors, batch sizes, worker counts and interleavings",
  "Universal over batch sizes, including those not dividing the row count.",
  ["hub_toolbox/hubness.py:Hubness._k_neighbors"])
p("C46", "DEFECT: dropping the first neighbour drops the wrong point when there are duplicates",
  "With has_self_distances=True (and in hubness_from_vectors without Y) the first of k+1 neighbours is dropped as 'self'. If self is strictly nearest the result is the k nearest others; if a duplicate exists there is a contract-abiding partition for which self stays among its own neighbours.",
  "all matrices for the positive part; a witness for the defect",
  "Depends on tie-breaking inside argpartition.",
  ["hub_toolbox/hubness.py:Hubness._k_neighbors_precomputed", "hub_toolbox/hubness.py:hubness_from_vectors"])
p("C64", "DEFECT: Hubness accepts metric='cosine' and then always fails",
  "The constructor accepts metric='cosine' but fit_transform on any non-empty vectors raises TypeError, because the keyword arguments meant for euclidean distances are passed to the cosine routine.",
  "all vectors, batch sizes, worker counts and schedules",
  "Failure on all inputs.",
  ["hub_toolbox/hubness.py:Hubness.__init__", "hub_toolbox/hubness.py:Hubness._k_neighbors", "hub_toolbox/hubness.py:_k_neighbors_parallel"])
p("C65", "DEFECT: a negative batch size silently makes object 0 everybody's neighbour",
  "With batch_size < 0 fit_transform computes no distance at all, raises nothing, returns neighbour lists that contain only object 0 and the occurrence vector (n*k, 0, ..., 0).",
  "all vectors, negative batch sizes, worker counts",
  "Silent corruption on all inputs.",
  ["hub_toolbox/hubness.py:Hubness._k_neighbors"])
p("C66", "sparse precomputed distances: the k nearest stored entries, self entries included",
  "On a csr distance matrix fit_transform returns for each row the columns of the k smallest stored entries, nearest first, whether or not all rows have the same number of entries; no rows raises IndexError and a row with fewer than k stored entries raises ValueError. has_self_distances has no effect, so a stored self distance makes a point its own neighbour.",
  "all csr matrices, k and permutations",
  "Two code paths must agree on all matrices.",
  ["hub_toolbox/hubness.py:Hubness._k_neighbors_precomputed_sparse", "hub_toolbox/hubness.py:Hubness.fit_transform"])
# ---------------------------------------------------------------- approximate
p("C47", "enforce_finite_distances yields finite non-negative values",
  "In exact arithmetic the result contains only finite values >= 0, keeps the order of finite entries, maps every non-finite entry to the largest finite value (1 if there is none), and is idempotent. DEFECT: in float64 the shift can overflow to infinity (witness).",
  "all arrays; one float64 witness",
  "Universal over arrays.",
  ["hub_toolbox/approximate.py:enforce_finite_distances"])
p("C48", "DEFECT: the sparse secondary distance matrix sums duplicate neighbours",
  "SuQHR builds its sparse distance matrix from (row, neighbour index, distance) triples. If the neighbour indices of a row are distinct each stored value is the computed secondary distance; if the list was padded by repeating an index, the stored value is the sum over the repetitions.",
  "all index and distance arrays",
  "Only padded candidate lists trigger it.",
  ["hub_toolbox/approximate.py:SuQHR._sparse_distance_matrix"])
p("C49", "options of the sparse Goodman-Kruskal index",
  "With zero_mv=True exactly the quadruples of two non-zero similarities are counted, for values of any sign; heuristic='equal_sim' returns the same index whenever no non-zero within-class similarity equals a between-class one, and a different one for some matrix with such ties.",
  "all matrices without NaN and label vectors; a witness with ties",
  "Universal over matrices; the interplay of implicit zeros, ties and the scan is not visible on single examples.",
  ["hub_toolbox/goodman_kruskal.py:sparse_goodman_kruskal_index"])
p("C50", "DEFECT: predict returns class numbers instead of class labels",
  "Without test_ind, each value returned by predict is the position, in the sorted list of distinct labels, of the label elected by the finite k nearest neighbours (strict plurality, else the nearest neighbour's label). It is therefore a valid label only when the labels are 0..c-1; a witness with labels {10, 20} returns 0 and 1.",
  "all square matrices, label matrices, lists of k, metrics, permutations and argsort results",
  "Tests with labels 0..c-1 cannot see it; the characterisation is universal.",
  ["hub_toolbox/knn_classification.py:predict"])
p("C51", "sparse mutual proximity with min_nnz keeps poor rows and marks their columns NaN",
  "For a sparse symmetric similarity matrix, an object with at most min_nnz stored similarities keeps its original row; every other object's value towards it is NaN wherever a non-zero similarity is stored, and nothing is stored where nothing was.",
  "all sparse symmetric matrices, all min_nnz, all schedules of the worker pool",
  "Universal over matrices and schedules.",
  ["hub_toolbox/global_scaling.py:_mutual_proximity_empiric_sparse", "hub_toolbox/global_scaling.py:_mpes_sec_dist"])

p("C52", "DEFECT: local scaling accepts k = n and k = 0 and then erases all distances",
  "local_scaling(D, k) with k = n or k = 0 raises no error and returns 0 for every pair of points, whatever the distances; nicdm(D, n) raises no error and returns NaN for every pair of different points.",
  "all square matrices with finite off-diagonal entries, all partition results, all schedules",
  "The claim is about every matrix; a test shows one.",
  ["hub_toolbox/local_scaling.py:local_scaling", "hub_toolbox/local_scaling.py:nicdm"])
p("C53", "DEFECT: held-out points shift the neighbour rank used by local scaling of similarities",
  "local_scaling(D, k, 'similarity', test_ind) with t held-out points scales each point by its (k - t)-th largest training similarity instead of the k-th, and raises ValueError whenever t >= k.",
  "all square matrices, all 1 <= k < n, all test sets, all schedules",
  "The rank is a function of every k and every test set.",
  ["hub_toolbox/local_scaling.py:local_scaling"])
p("C54", "DEFECT: non-positive n_jobs fails late in local_scaling and is accepted by nicdm",
  "For n_jobs < 1 other than -1 local_scaling never returns a matrix: on every input which n_jobs = 1 handles it raises UnboundLocalError; nicdm returns the same result as with n_jobs = 1.",
  "all inputs, all n_jobs < 1 other than -1, all schedules",
  "Universal over inputs and settings.",
  ["hub_toolbox/local_scaling.py:local_scaling", "hub_toolbox/local_scaling.py:nicdm"])
p("C55", "DEFECT: weighted centering gives the largest weights to the points least similar to the mean",
  "weighted_centering(X, 'cosine', gamma > 0) subtracts from every row one and the same convex combination of all rows, whose weights strictly decrease with the cosine similarity to the training mean; the documented purpose is to move the origin towards hubs, i.e. the points most similar to the mean.",
  "all finite matrices without zero rows and with non-zero training mean, all gamma > 0, all test masks",
  "Universal over data and gamma.",
  ["hub_toolbox/centering.py:weighted_centering"])
p("C56", "local DisSim subtracts both distances to the local centroids",
  "dis_sim_local(X, k) returns, for every two different points, the squared distance minus the squared distances of both to the mean of their k nearest other points, and -inf on the diagonal; with separate training points Y the lists are drawn from Y; the result is unchanged by moving all points, and by the number of workers and their schedule; k >= number of points raises ValueError.",
  "all finite data, all 0 < k < n, all partition results, all worker counts and schedules",
  "Universal over data, tie-breaking and schedules.",
  ["hub_toolbox/centering.py:dis_sim_local"])
p("C57", "lp_norm is the Minkowski distance for every p > 0",
  "lp_norm(X, Y, p) equals (sum |x-y|^p)^(1/p) for every p > 0, including the special-cased p = 1 and p = 2; without Y it is symmetric, zero on the diagonal, non-negative, translation invariant and homogeneous; p=None raises ValueError.",
  "all finite data, all p > 0",
  "Universal over data and exponents.",
  ["hub_toolbox/distances.py:lp_norm"])
p("C58", "localized centering: similarity minus a penalty for being close to one's own neighbours",
  "localized_centering(X, Y, kappa, gamma) returns the cosine similarity minus (mean similarity of the column point to its kappa most similar points)^gamma (without the exponent for the whole matrix as soon as one such mean is negative), is unchanged when rows are multiplied by positive factors and by the schedule of the worker pool, always terminates with an outcome, and raises ValueError if kappa is larger than the number of points.",
  "all finite data, all kappa and gamma >= 0, all partition results, worker counts and schedules",
  "Universal over data, tie-breaking and schedules.",
  ["hub_toolbox/centering.py:localized_centering"])
p("C59", "DEFECT: local DisSim with explicit Y counts each training point as its own neighbour",
  "dis_sim_local(X, Y, k) draws the neighbours of each training point from all of Y, itself included; when the points are pairwise different every training point is in its own list, and dis_sim_local(X, Y=X, k=1) is just the matrix of squared distances, unlike dis_sim_local(X, k=1).",
  "all data with pairwise different training points, all k < n_train",
  "The claim is about every data set.",
  ["hub_toolbox/centering.py:dis_sim_local"])
p("C60", "matrix_split batches cover all rows and fit into memory; DEFECT: too little memory divides by zero",
  "If matrix_split returns (nr_batches, nr_rows) then the batches cover all rows, none is empty, and nr_matrices copies of one batch fit into the free memory; when fewer than nr_matrices rows fit, it raises ZeroDivisionError.",
  "all shapes, element sizes, copy counts and amounts of free memory",
  "The result depends on the machine's free memory.",
  ["hub_toolbox/io.py:matrix_split"])
p("C61", "random_sparse_matrix yields a similarity matrix for every random draw",
  "For every non-negative random draw the result is square, symmetric, has ones on the diagonal, all values in [0,1], and stores an off-diagonal value exactly where the draw had one in either triangle.",
  "all sizes, all draws",
  "The output is random; tests see single draws.",
  ["hub_toolbox/io.py:random_sparse_matrix"])
p("C62", "DEFECT: analyses without vectors end in internal errors",
  "On a HubnessAnalysis made from a distance matrix without vectors, the experiments cent, wcent, dsg and dsl always raise AttributeError and lcent always raises TypeError; as the default experiment list contains cent, analyze_hubness() with default arguments always raises and keeps at most the experiments orig, mp, mp_gaussi and nicdm.",
  "all matrices, labels, metrics and lists of k",
  "The claim is about every input; tests use single data sets with vectors.",
  ["hub_toolbox/hubness_analysis.py:HubnessAnalysis.analyze_hubness", "hub_toolbox/hubness_analysis.py:HubnessExperiment._calc_secondary_distance"])
p("C63", "DEFECT: vector based experiments are evaluated upside down for similarity data",
  "With metric='similarity' the experiments cent, wcent, lcent, dsg and dsl produce dissimilarities but hubness is computed as if they were similarities: in every such experiment no unlisted point is more dissimilar than a listed one, so the reported k nearest neighbours are the k farthest.",
  "all data, lists of k, partition results and permutations; a witness",
  "Universal over data; the results look plausible.",
  ["hub_toolbox/hubness_analysis.py:HubnessExperiment._calc_hubness"])
p("C67", "k-means++ seeding returns a greedy run over existing objects",
  "kmeanspp returns n_clusters indices of existing objects. The first is the random one; each later one is, among one candidate per uniform number drawn with probability proportional to the distance to the closest earlier centre, one that leaves the smallest sum of closest distances. The indices are pairwise different when different objects have positive distance, n_clusters does not exceed the number of objects and no uniform number is exactly 0; a round of zeros selects object 0 even if it is a centre already, and more centres than objects force a repetition.",
  "all distances, first draws, sequences of uniform numbers and numbers of centres",
  "The random numbers range over a continuum; tests fix a seed.",
  ["hub_toolbox/approximate.py:kmeanspp"])
p("C68", "Approximate empiric mutual proximity counts vantage points, independently of the worker count",
  "ApproximateHubnessReduction with hr_algorithm='mp' and fixed vantage points returns, for every query and vantage point, one minus the fraction of vantage points farther from both than they are from each other. The result, or the error, is the same for every n_jobs and every schedule; it fails, with ValueError, exactly for an unknown metric, empty or non-finite data, different numbers of features, or random sampling of all objects or more. Values are in (0,1]. Without sampling, transforming the training data gives the exact mutual proximity off the diagonal.",
  "all data, metrics' distances, samplings, worker counts, schedules",
  "Parallel schedules and all data cannot be enumerated.",
  ["hub_toolbox/approximate.py:SuQHR", "hub_toolbox/approximate.py:SuQHR._transform_mp", "hub_toolbox/approximate.py:_mp_full", "hub_toolbox/global_scaling.py:mutual_proximity_empiric"])
p("C69", "DEFECT: approximate Gaussian mutual proximity counts the self distance when it samples",
  "With hr_algorithm='mpg' each value is one minus the product of the two normal survival probabilities of the distance, so lies in [0,1] when the deviations are positive and is NaN when a query is equally far from all vantage points. Without sampling the moments of a vantage point are taken over the other vantage points; with sampling the zero self distance is included, which shrinks the mean by (s-1)/s and changes the variance accordingly.",
  "all data, samplings, survival functions",
  "A claim about every data set; the biased values look plausible.",
  ["hub_toolbox/approximate.py:SuQHR._fit_mpg", "hub_toolbox/approximate.py:SuQHR._transform_mpg"])
p("C70", "Approximate local scaling uses the k-th radius; DEFECT: approximate NICDM depends on the order np.partition leaves",
  "With hr_algorithm='ls' each value is 1-exp(-d^2/(r_x r_t)) with r_x the k-th smallest distance of the query and r_t the k-th smallest distance of the vantage point to the others, for every partition the library may return; it needs more than k vantage points (else ValueError), an unknown metric raises UnboundLocalError, and values are in [0,1), zero exactly at distance zero, when fewer than k distances are zero. With 'nicdm' the radius of a vantage point is the mean of the k smallest distances to others minus x0/k, where x0 is whatever np.partition puts first: one legal result gives 0, another the (k-1)-th smallest distance.",
  "all data, samplings, k, partition results",
  "Tests run one implementation of np.partition on single data sets.",
  ["hub_toolbox/approximate.py:SuQHR._fit_ls", "hub_toolbox/approximate.py:SuQHR._transform_ls"])
p("C71", "Approximate DisSim Local subtracts the distances to local centroids; DEFECT: the neighbours of vantage points depend on the order np.argpartition leaves",
  "With hr_algorithm='dsl' and fixed vantage points each value is the distance of query and vantage point minus the distance of each to the mean of its local neighbours. A query uses its k nearest vantage points; a vantage point uses k of the k+1 vantage points nearest to it, itself included. Which one is left out is not specified by numpy: one legal argpartition gives the k nearest others, another gives the point itself and the k-1 nearest others, so that for k=1 the results differ by the distance to the nearest other vantage point. At most k+1 vantage points, or an unknown metric, raise ValueError.",
  "all data, samplings, k, argpartition results",
  "Tests run one implementation of np.argpartition on single data sets.",
  ["hub_toolbox/approximate.py:SuQHR._fit_dsl", "hub_toolbox/approximate.py:SuQHR._transform_dsl"])
p("C74", "ApproximateHubnessReduction validates its arguments; DEFECT: 'precomputed' is accepted but unusable",
  "The constructor succeeds exactly if the algorithm and the sampling are None, 'none' or one of the documented names in any mixture of case, n_neighbors and n_samples are at least 1, the metric and predictor are known, n_jobs is -1 or at least 1, verbose is not negative and the library for the sampling is installed; it stores the canonical names and n_jobs=-1 becomes the number of processors. Otherwise it raises ImportError (library missing) or ValueError. metric='precomputed' is accepted, but every method with fixed vantage points raises with it (UnboundLocalError for LS and NICDM, ValueError otherwise), and without hubness reduction it silently means squared Euclidean distance of the given rows.",
  "all arguments; all data for the last part",
  "Strings and integers are unbounded domains.",
  ["hub_toolbox/approximate.py:SuQHR.__init__", "hub_toolbox/approximate.py:SuQHR._transform_without_hr"])
p("C72", "Candidate lists from an index are padded; DEFECTS: with 'cosine' the converted values are reversed or the padding is nearest, with one LSH worker the padding is uninitialised memory",
  "With sampling_algorithm 'hnsw' every training object gets the answers of the index without the first, every query all answers, and missing places repeat the last index with the largest answered value; fitting succeeds exactly if every answer has 1 to n_samples+1 entries. An object for which only itself is found becomes its own neighbour. With 'cosine', if the index answers distances the stored distances descend; if it answers similarities the padding gets the smallest distance of all. With 'lsh' and several workers the padding is the largest distance for every schedule; with one worker it can be any larger value found in uninitialised memory, and for metric 'precomputed' all distances of training rows are arbitrary.",
  "all answers of an index, numbers of candidates, worker counts, schedules, contents of fresh memory",
  "The index, the schedule and the memory contents are outside the control of a test.",
  ["hub_toolbox/approximate.py:SuQHR._hnsw_filtering", "hub_toolbox/approximate.py:SuQHR._hnsw_trafo", "hub_toolbox/approximate.py:SuQHR._lsh_filtering", "hub_toolbox/approximate.py:SuQHR._lsh_trafo", "hub_toolbox/approximate.py:_lsh_filt", "hub_toolbox/approximate.py:_lsh_trafo"])
p("C73", "Mutual proximity on index candidates counts uncovered training objects; exact if the index is; DEFECT: with LSH and 'cosine' the threshold is compared with negative inner products",
  "With hr_algorithm='mp' and 'hnsw' the value of query and j-th candidate is one minus the fraction of training objects that are neither among the first j candidates of the query nor among the listed neighbours of the candidate within the distance, provided the stored distances of the candidate ascend. It is the same for every schedule and in (0,1]. If the index is exact and lists everything, it is the fraction of the mutual proximity definition. With 'lsh' the two lists are the answers to radius queries; for 'cosine' the index compares negative inner products with the cosine distance, so for data without negative inner products an exact index answers every object and every value at a positive distance is 1.",
  "all answers of an index, data, schedules",
  "The index and the schedule are outside the control of a test.",
  ["hub_toolbox/approximate.py:SuQHR._transform_mp", "hub_toolbox/approximate.py:_mp_hnsw", "hub_toolbox/approximate.py:_mp_lsh"])
p("C75", "predict lets the nearest candidates vote; DEFECTS: with an index knn__n_neighbors is ignored and padding votes",
  "predict gives each query the smallest of the most frequent labels among its K nearest candidates by secondary distance, where a secondary distance that is not finite counts as the largest finite one of the matrix; fewer than K candidates raise ValueError. With fixed vantage points K is knn__n_neighbors, 5 by default; with an index K is n_neighbors and knn__n_neighbors has no influence. Padding votes too: if n_samples = n_neighbors and the index finds at most half of them, the label of the farthest candidate found wins whatever the others are. With an index, if all secondary distances are finite and no two candidates of a query have the same, the prediction does not depend on np.argpartition.",
  "all secondary distances, candidate lists, labels, neighbour numbers, argpartition results",
  "Infinitely many distance matrices and candidate lists.",
  ["hub_toolbox/approximate.py:SuQHR._predict_knn", "hub_toolbox/approximate.py:SuQHR.predict", "hub_toolbox/approximate.py:enforce_finite_distances"])
p("C76", "Local scaling, NICDM and DisSim Local on an exact index agree with their definitions; DEFECTS: Gaussian moments are biased, n_samples < n_neighbors is handled inconsistently",
  "If the index is exact, the radii of local scaling are the distances of rank n_neighbors, those of NICDM the means of the n_neighbors smallest distances, and DisSim Local uses the centroids of the n_neighbors nearest objects. Gaussian mutual proximity takes mean and deviation from the listed candidates only: the mean is never larger than over all objects, and smaller if an unlisted object is farther than the last candidate. With n_samples < n_neighbors local scaling raises IndexError in transform, while NICDM and DisSim Local silently use n_samples neighbours.",
  "all distances, candidate lists of an exact index, data",
  "A claim for all data sets.",
  ["hub_toolbox/approximate.py:SuQHR._fit_ls", "hub_toolbox/approximate.py:SuQHR._transform_ls", "hub_toolbox/approximate.py:SuQHR._fit_mpg", "hub_toolbox/approximate.py:SuQHR._transform_mpg", "hub_toolbox/approximate.py:SuQHR._fit_dsl", "hub_toolbox/approximate.py:SuQHR._transform_dsl"])
p("C77", "simhubIN distances follow the informativeness of common neighbours; different objects keep a minimum distance",
  "simhubIN of a square distance matrix returns, for different objects, one minus the sum of ln(m/N(x)) over the common neighbours x divided by s ln m, where N(x) counts the neighbourhoods containing x, its own included. Similarities are symmetric, at least 0 and at most the share of common neighbours (so the hubness aware similarity never exceeds the plain shared neighbour similarity); the diagonal is 0 for distances, 1 for similarities. With finite distances, m >= 3 and s < m, no two different objects, not even duplicates, are nearer than ln 3/ln m.",
  "all square matrices, neighbourhood sizes, legal argsort results",
  "Infinitely many matrices; exact identities and bounds of logarithms.",
  ["hub_toolbox/shared_neighbors.py:simhubIN"])
p("C78", "simhubIN does not depend on the number of workers or their schedule",
  "For every n_jobs (including -1, whatever the number of processors) and every schedule of both worker pools simhubIN ends, with the result of the serial computation or the same exception.",
  "all inputs, worker counts, distributions of tasks, interleavings of writes",
  "Schedules cannot be enumerated by tests.",
  ["hub_toolbox/shared_neighbors.py:simhubIN", "hub_toolbox/shared_neighbors.py:_shi_hood", "hub_toolbox/shared_neighbors.py:_shi_simhub_vect", "hub_toolbox/shared_neighbors.py:_shi_simhub"])
p("C79", "Unsupervised simhub equals simhubIN; DEFECT: only simhub checks the neighbourhood size",
  "On square matrices with finite distances and 0 < s < m simhub without labels returns the same matrix as simhubIN, for every test set, and vect_usage never matters. For every other s simhub raises ValueError, while simhubIN with s=0 silently returns NaN for all pairs of different objects.",
  "all square matrices, sizes, test sets, vect_usage",
  "Equality of two programs on all inputs.",
  ["hub_toolbox/shared_neighbors.py:simhub", "hub_toolbox/shared_neighbors.py:simhubIN"])
p("C80", "Sampled simhub is right for leading training rows; DEFECT: for other samples occurrences are counted in the wrong rows and the loop branch compares the wrong objects",
  "If the training objects are the first rows in order, simhubIN returns the specified similarity of every test object and training object, in [0,1]. For an arbitrary sample occurrences are counted over the first m rows, whichever objects these are, and from 2000 columns on training object j is replaced by row j. There are samples where objects without informative common neighbour get a positive similarity, where simhub returns different values for vect_usage 1 and -1, and where simhub distances exceed 1.",
  "all matrices, samples, test sets, neighbourhood sizes",
  "Infinitely many samples; the second branch needs 2000 columns.",
  ["hub_toolbox/shared_neighbors.py:simhubIN", "hub_toolbox/shared_neighbors.py:simhub"])
p("C81", "Supervised simhub weighs common neighbours by information gain; DEFECTS: out of range with three classes, NaN with one class",
  "simhub with labels returns one minus the sum of ln(m/N(x)) times the information gain of x over common neighbours, divided by s ln m ln C. It is symmetric, similarities are at most 1, and with two classes at least 0. Since one occurrence is added to every class but only one to the total, with three classes the gain can be negative and distances exceed 1. With one class all pairs of different objects get NaN. The assertion on the class counts never fails unless the label list is empty.",
  "all matrices, labels, neighbourhood sizes",
  "Infinitely many matrices and labellings.",
  ["hub_toolbox/shared_neighbors.py:simhub"])
GS = "hub_toolbox/global_scaling.py:"
p("C82", "Gaussian Mutual Proximity is the product of two normal tail probabilities",
  "For a square matrix with finite off-diagonal entries mutual_proximity_gaussi returns a symmetric matrix with values in [0,1]: for similarities the product of the two normal distribution functions of the value, with mean and standard deviation of the values of either object to the other training objects; for distances one minus the product of the complements. Zeros and self distances do not enter as written. The diagonal is 0 (distance) or 1 (similarity).",
  "all finite square matrices, both metrics, all test sets leaving two training objects",
  "Exact value for infinitely many matrices.",
  [GS+"mutual_proximity_gaussi"])
p("C83", "Gaussian Mutual Proximity does not depend on the unit or origin of the distances",
  "Replacing every off-diagonal distance d by a*d+b with a>0 does not change the result, provided no object has constant distances.",
  "all finite square matrices, factors, offsets, metrics, test sets",
  "Relates infinitely many pairs of runs.",
  [GS+"mutual_proximity_gaussi"])
p("C84", "Gaussian Mutual Proximity pushes hubs away",
  "If an object is equally far from two others, then the one for which this distance is nearer relative to mean and spread of its own distances never gets the larger Mutual Proximity value: the ordering is decided by the standardised distances of the neighbours.",
  "all finite square matrices, triples of objects, both metrics",
  "A monotonicity claim over all matrices.",
  [GS+"mutual_proximity_gaussi"])
p("C85", "Held-out objects do not influence the scaling of the others",
  "With test_ind two matrices that agree on the training objects give the same values between training objects (Gaussian and Gamma), and in the Gaussian variant a value involving a held-out object depends only on that pair and the columns of the two objects over training rows.",
  "all matrices (NaN and inf included), arithmetics, test sets",
  "Non-interference: a claim about all pairs of matrices.",
  [GS+"mutual_proximity_gaussi", GS+"mutual_proximity_gammai"])
p("C86", "Sampled Gaussian Mutual Proximity uses the moments of the sampled columns",
  "For a matrix of distances to sampled objects (idx) every row is scaled with mean and deviation of its sampled distances, self distances left out; the cell of an object with itself gets the self value; values lie in [0,1]. mutual_proximity_gaussi with idx gives the same result as mutual_proximity_gaussi_sample, and test_ind selects rows of the full result.",
  "all n x s matrices with finite entries, samples without repetition, both metrics, row selections",
  "Infinitely many matrices and samples.",
  [GS+"mutual_proximity_gaussi_sample", GS+"mutual_proximity_gaussi"])
p("C87", "Sampling all objects equals not sampling",
  "For a symmetric matrix mutual_proximity_gaussi_sample with idx = 0..n-1 returns the same matrix as mutual_proximity_gaussi.",
  "all symmetric finite matrices of at least two objects, both metrics",
  "Equality of two programs on all inputs.",
  [GS+"mutual_proximity_gaussi_sample", GS+"mutual_proximity_gaussi"])
p("C88", "DEFECT: sample_size of Gaussian Mutual Proximity cannot be used",
  "On every square matrix with a valid metric and without idx any sample_size other than 0 raises TypeError, while 0 succeeds; with idx neither sample_size nor test_ind has an effect.",
  "all square matrices, metrics, sample sizes, test sets, samples",
  "Claims that no value works.",
  [GS+"mutual_proximity_gaussi"])
p("C89", "Gamma Mutual Proximity is the product of two gamma tail probabilities and scale invariant",
  "For matrices with positive mean off-diagonal values mutual_proximity_gammai returns a symmetric matrix in [0,1] with shape mean^2/variance and scale variance/mean of either object's values to the training objects. Multiplying all distances by a positive factor does not change it if no object has constant distances.",
  "all finite square matrices with positive column means, both metrics, test sets",
  "Exact value for infinitely many matrices.",
  [GS+"mutual_proximity_gammai", GS+"_local_gamcdf"])
p("C90", "Sparse Gaussian Mutual Proximity scales stored similarities with the moments of stored similarities; objects with constant similarities get NaN",
  "For a sparse similarity matrix with unit diagonal mutual_proximity_gaussi stores no entry where there was none, keeps unit self similarities, is symmetric, and gives a stored pair the product of the normal distribution functions with mean and deviation of the stored similarities of either object. DEFECT: if one of the objects has constant stored similarities the result is NaN (the dense variant replaces deviation 0).",
  "all sparse similarity matrices with unit diagonal",
  "Infinitely many matrices and patterns.",
  [GS+"_mutual_proximity_gaussi_sparse", GS+"mutual_proximity_gaussi"])
p("C91", "Sparse and dense Gaussian Mutual Proximity agree on completely stored matrices",
  "If all similarities are stored and no object has constant similarities the sparse and the dense computation give the same values.",
  "all symmetric similarity matrices without zeros",
  "Equality of two programs on all inputs.",
  [GS+"_mutual_proximity_gaussi_sparse", GS+"mutual_proximity_gaussi"])
p("C92", "DEFECT: sparse Gaussian and Gamma Mutual Proximity ignore metric='distance', Gaussian also min_nnz",
  "For every sparse matrix metric='distance' gives the same outcome as 'similarity' (values scaled as similarities, unit diagonal), and the Gaussian result is the same for all min_nnz and sample_size. Matrices with a zero self distance raise ValueError, whatever the metric. The empiric variant raises ValueError for 'distance' in every execution.",
  "all sparse matrices, min_nnz, sample sizes, test sets, schedules",
  "Equality of outcomes for all inputs.",
  [GS+"_mutual_proximity_gaussi_sparse", GS+"_mutual_proximity_gammai_sparse", GS+"_mutual_proximity_empiric_sparse"])
p("C93", "DEFECT: held-out objects of sparse matrices get NaN",
  "With test_ind the sparse Gaussian variant subtracts the self similarity from the moments of objects that are not among the summed rows; if the squared similarities of a held-out object to the training objects sum to less than 1, all its stored similarities become NaN.",
  "all sparse similarity matrices, test sets, pairs with a held-out object",
  "Infinitely many matrices.",
  [GS+"_mutual_proximity_gaussi_sparse"])
p("C94", "Sparse Gamma Mutual Proximity: values; DEFECT: objects with few neighbours are treated differently depending on their position",
  "Pairs whose first object has more than min_nnz stored values get the product of the gamma distribution functions (if the similarities of both to others are at least two, not constant and of positive mean), and so does the mirrored cell if the second object has, otherwise that row keeps the original similarities. If the first object of a pair has too few stored values, the other object's cell is not stored at all: whether a similarity to such an object is kept depends on the order of the objects, and the documented NaN is not stored in that cell (for stored NaN see C171).",
  "all sparse similarity matrices, thresholds, pairs of objects",
  "Infinitely many matrices; a claim about reordering objects.",
  [GS+"_mutual_proximity_gammai_sparse"])
IDF = "hub_toolbox/intrinsic_dimension.py:intrinsic_dimension"
p("C95", "The intrinsic dimension is the maximum likelihood estimate of Levina and Bickel (or MacKay's variant)",
  "For n distinct objects (the rows, after the requested transformation), 3 <= k1 <= k2 < n, and no object with its k1 nearest neighbours all at one distance, intrinsic_dimension returns for 'levina' the mean over objects and k of (k-2)/sum_j ln(T_k/T_j), for 'mackay' the mean over k of the harmonic mean over objects, T_j being the distance to the j-th nearest other object; the result is a positive real, not rounded. A distance of 0 counts as sqrt(1e-7).",
  "all finite data, both estimators, all transformations, neighbourhood ranges, legal sorts",
  "Exact value for infinitely many data sets.",
  [IDF])
p("C96", "The intrinsic dimension depends only on relative distances",
  "The outcome does not depend on the order of the objects nor on mem_threshold; without transformation it is the same for any data with the same pairwise distances (rotations, embeddings in more dimensions), and for distinct objects it does not depend on the scale; translations never matter.",
  "all finite data, permutations, isometries, factors, offsets, thresholds, parameters (invalid ones included)",
  "Relates infinitely many pairs of runs.",
  [IDF])
p("C97", "DEFECT: k1=1 always gives infinity, k=2 contributes 0, ties give NaN or minus infinity",
  "k1=1 passes the check of the neighbourhood range but gives infinity for all distinct objects without ties; for k1=2 the estimate is exactly (k2-2)/(k2-1) times that for k1=3. If an object has its two nearest neighbours at the same distance and 2 is in the range the result is NaN; if its k1 >= 3 nearest are, the Levina-Bickel estimate is minus infinity.",
  "all finite data sets of distinct objects, transformations, ranges",
  "A claim for all data sets.",
  [IDF])
p("C98", "DEFECT: duplicates are not removed; the estimate can be negative",
  "The comment promises unique rows, but rows are only sorted. A duplicate counts as a neighbour at distance sqrt(1e-7), which may be farther than the next neighbours: for the points 0, 0, d, 3d with any d up to 1e-5 the default estimator with k1=k2=3 returns a negative dimension.",
  "all d in (0, 1e-5], legal sorts, mem_threshold",
  "A family of inputs of measure zero for random tests.",
  [IDF])
p("C99", "Which calls of intrinsic_dimension are accepted; DEFECT: metric='distance' never is",
  "A call succeeds iff the estimator is 'levina' or 'mackay', 0 < k1 <= k2 < number of rows, metric is 'vector' and trafo is None, 'std' or 'var'; otherwise it raises ValueError or NotImplementedError. The documented metric 'distance' is never accepted.",
  "all arrays, integers, strings, arithmetics",
  "All strings and integers.",
  [IDF])
RPF = "hub_toolbox/knn_classification.py:r_precision"
p("C100", "R-precision of an object",
  "For a sparse similarity matrix in which every object is most similar to itself, r_precision gives object i the fraction h/R, R being the number of other objects with its label and h how many of its min(R, number of stored others) most similar other objects have its label (0 if h = 0). Every precision and both averages are between 0 and 1 in double precision, however sums are associated.",
  "all sparse similarity matrices without NaN and stored zeros, label vectors with at least one shared label, tie-breaking, random permutations, argpartition results",
  "Infinitely many matrices and all random draws.",
  [RPF])
p("C101", "r_precision does not depend on randomness or scheduling when there are no ties",
  "If no row has two equal stored similarities, two calls of r_precision return the same precisions, averages and relevant counts, whatever permutations are drawn, whichever worker processes an object, and whatever argpartition does outside of the requested positions.",
  "all tie-free similarity matrices, pairs of runs",
  "Relates all pairs of runs.",
  [RPF])
p("C102", "Macro and weighted R-precision",
  "The macro average is the mean of the precisions over all objects, objects alone in their class counting as 0. The weighted average is the total number of correct neighbours over the total number of relevant items.",
  "all similarity matrices as in C100, exact arithmetic",
  "Exact value for infinitely many inputs.",
  [RPF])
p("C103", "Input r_precision refuses or cannot handle",
  "Dense matrices and metric='distance' raise NotImplementedError; labels that are all different raise ZeroDivisionError; an empty row of an object that shares its label raises ValueError; an explicitly stored zero in such a row raises IndexError if no stored value is NaN (with NaN see C175).",
  "all matrices, label vectors, random draws",
  "All matrices of each kind.",
  [RPF])
p("C104", "DEFECT: r_precision counts an object as its own correct neighbour",
  "The most similar object of each row is dropped, whether it is the object itself or not. If between 1 and R other objects are more similar to i than i itself, without ties, then i is among its own R neighbours and counted as a hit; there are similarity matrices in which an object reaches precision 1 without any other correct neighbour.",
  "all such similarity matrices, random draws",
  "Characterises all inputs with this structure.",
  [RPF])
p("C105", "Neighbour labels returned by r_precision",
  "Each row of the returned labels has the requested length. It lists the labels of the R-nearest neighbours, the nearest first, padded with the smallest integer; rows without hit contain only the padding. Beyond the first, the order of the labels need not follow the similarity.",
  "all finite similarity matrices, random draws, legal argpartition results",
  "All matrices and all legal partial sorts.",
  [RPF])
SCF = "hub_toolbox/knn_classification.py:score"
p("C106", "k-NN evaluation of a sparse similarity matrix",
  "For a sparse similarity matrix in which every object is most similar to itself, score reports for each k the result of predicting every object from its min(k, number of stored others) most similar other objects: majority, ties broken by the most similar one. Objects without stored similarity to others get an extra label that no object has. Accuracy, correctness flags and confusion matrix (with one row and column for that label) describe these predictions.",
  "all finite sparse similarity matrices, labels, lists of k, random draws, legal argpartition results",
  "Infinitely many matrices and all random draws.",
  [SCF])
p("C107", "Sparse and dense k-NN evaluation agree",
  "If all similarities are stored, finite and without ties, score returns the same accuracy, flags and confusion matrix for the sparse and for the dense matrix.",
  "all fully stored tie-free similarity matrices, labels, lists of k, random draws of both calls",
  "Relates two code paths for all matrices.",
  [SCF])
p("C108", "DEFECT: score ignores metric='distance' for sparse input",
  "For sparse input score returns the same for metric='distance' and 'similarity': the farthest stored object is left out as if it were the object itself and the next k farthest vote. There are sparse distance matrices for which every prediction is wrong while the dense evaluation is all correct.",
  "all sparse matrices of positive distances, labels, lists of k, random draws",
  "Characterises all sparse distance matrices.",
  [SCF])
p("C109", "DEFECT: with sparse input, held-out objects take part in the vote",
  "score with test_set_ind on a sparse matrix gives every held-out object the flag of the leave-one-out evaluation. If the most similar object of every held-out object is held out too and shares its label, the evaluation with k=1 is perfect even though no training object may have such a label.",
  "all sparse similarity matrices, test sets, random draws",
  "A relation between runs for all inputs.",
  [SCF])
p("C110", "Sparse input score refuses or cannot handle",
  "sample_idx with sparse input raises TypeError; a row without stored entries raises ValueError; a stored zero raises IndexError if no stored value is NaN.",
  "all sparse matrices of each kind, labels, lists of k, random draws",
  "All matrices of each kind.",
  [SCF])
p("C111", "An analysis reports what the individual functions return; DEFECT: never for vectors of up to 12 objects",
  "Each experiment of an analysis works on the result of the public function its name stands for, called on the stored data with that function's default parameters (k=7 for local scaling, k=10 for shared neighbours, kappa=40 for localized centering, ...). The hubness, accuracy and Goodman-Kruskal values stored for the requested k are those of hubness, score and goodman_kruskal_index on these secondary distances; nothing else is stored. Experiments that take the matrix never fail with TypeError while computing secondary distances. If vectors of at most 12 objects are given every analysis raises ValueError and performs no experiment.",
  "all analyses, names, lists of k, random draws, arithmetics",
  "All experiments on all data.",
  ["hub_toolbox/hubness_analysis.py:HubnessAnalysis.analyze_hubness", "hub_toolbox/hubness_analysis.py:HubnessExperiment"])
MPD="hub_toolbox/distances.py:mp_dissim"
p("C112", "mp_dissim computes the m_p dissimilarity",
  "For real data, p >= 0 (0 meaning 2) and 1 <= n_bins <= n_y (a number that C115 accepts for 'mass'), D[i,j] is the p-th power mean, over the features, of the number of objects of Y in the bins between that of x_i and that of y_j (both included), divided by n_x + n_y. The bins are n_bins intervals of equal width between the smallest and largest value ('range'), or are cut at every floor(n_y / n_bins)-th object in sorted order ('mass'); values outside belong to the outermost bins. Without Y the data are compared with themselves.",
  "all real data sets, n_bins, p, numbers of worker processes, schedules and implementations of partition",
  "Exact values for all data and schedules.",
  [MPD])
p("C113", "Order and bounds of mp_dissim; DEFECT: never above n_y/(n_x+n_y)",
  "D is finite, at least 1/(n_x+n_y) and at most n_y/(n_x+n_y). An object of Y that lies between x and another object in every feature is not farther from x than that object. Without Y, D is symmetric in every arithmetic, no entry of a row is smaller than the diagonal entry, the diagonal is positive and all entries are at most 1/2 although the probability mass of the whole data set is 1.",
  "all real data sets (symmetry: all arithmetics), n_bins, p, schedules",
  "Bounds and relations between entries for all data.",
  [MPD])
p("C114", "mp_dissim does not depend on workers or schedule",
  "Two calls with the same data and parameters return equal matrices or raise the same exception, whatever the numbers of worker processes and the order in which they write into the shared buffers. Every call has an outcome.",
  "all inputs, arithmetics, numbers of workers >= 1, interleavings",
  "All schedules.",
  [MPD])
p("C115", "Arguments mp_dissim accepts; DEFECT: its default n_bins is refused",
  "n_bins=0, the default, always raises, as do negative n_bins and n_bins > n_y. With 'mass' and data without NaN the call succeeds exactly if ceil((n_y - 1) / floor(n_y / n_bins)) = n_bins and raises ValueError otherwise; n_bins = n_y always raises. Every beginning of 'mass' (also the empty string) means 'mass', every non-empty beginning of 'range' means 'range', all other strings raise.",
  "all data, n_bins, strings, arithmetics, schedules",
  "All arguments.",
  [MPD])
p("C116", "Invariance of mp_dissim",
  "With 'mass' the result depends on each feature only through the order of its values: data sets with the same order within each feature give the same result, also in floating point and whatever partition algorithm numpy uses. With 'range' each feature may be shifted and multiplied by a positive number (exact arithmetic).",
  "all pairs of data sets with the same order ('mass'), all affine maps ('range')",
  "Relation between runs on different data.",
  [MPD])
p("C117", "DEFECT: mp_dissim of a pair depends on how many other queries there are",
  "If x_i is queried among n_x' instead of n_x objects, with Y unchanged, its dissimilarity to every y_j is multiplied by (n_x + n_y)/(n_x' + n_y), although the mass counts only objects of Y.",
  "all real data sets, both kinds of bins",
  "Relation between runs of different size.",
  [MPD])
p("C118", "sample_distance returns the distances to a sample",
  "A successful call returns the n x s matrix of distances from every object to the s sampled objects, and their s distinct positions in the order of the columns; 1 <= s < n. Strategies other than 'a' raise NotImplementedError. DEFECT: an integer sample size that is not a Python int, like numpy's integers, is multiplied by n and always raises.",
  "all data, labels, sample sizes, samples drawn",
  "All samples.",
  ["hub_toolbox/distances.py:sample_distance"])
p("C119", "snn_sample does not depend on jobs or schedule",
  "Whatever n_jobs, the number of processors and the order in which the workers write, snn_sample has an outcome, and it is the outcome of the serial run: the same matrix or the same exception.",
  "all matrices, k, metrics, index lists, numbers of jobs, interleavings",
  "All schedules.",
  ["hub_toolbox/shared_neighbors.py:snn_sample"])
p("C120", "snn_sample returns values in [0,1] and agrees with the full computation",
  "All entries lie in [0,1]; asking for a list of rows returns exactly these rows of the full result. If all objects are in the sample and the distances of a row are finite and different, snn_sample returns what shared_nearest_neighbors returns, for every k and both metrics.",
  "all matrices, k, metrics, samples, argsort and argpartition results",
  "Relation between runs of two functions, for all inputs.",
  ["hub_toolbox/shared_neighbors.py:snn_sample", "hub_toolbox/shared_neighbors.py:shared_nearest_neighbors"])
p("C121", "DEFECT: local_scaling, nicdm and snn_sample never accept sparse matrices; train_ind cannot be omitted",
  "local_scaling, nicdm and the three _sample functions raise for every sparse matrix, although local_scaling announces experimental support of sparse similarities: a square one always raises IndexError there, a sparse distance matrix in nicdm too. The _sample functions raise TypeError whenever the optional train_ind is left out.",
  "all sparse matrices and all other arguments, any arithmetic",
  "All inputs.",
  ["hub_toolbox/local_scaling.py:local_scaling", "hub_toolbox/local_scaling.py:nicdm", "hub_toolbox/local_scaling.py:local_scaling_sample", "hub_toolbox/local_scaling.py:nicdm_sample", "hub_toolbox/shared_neighbors.py:snn_sample"])
p("C122", "The confusion matrices of predict count its predictions and agree with score",
  "Entry (a,b) of the confusion matrix for a value of k and an output is the number of objects with the a-th distinct label and prediction b. In leave-one-out mode with positive k predict always returns, rows sum to the class sizes and the whole matrix to the number of objects. For one output and the same random choices the matrices are those of score, and score's correctness flags are those of predict's predictions.",
  "all matrices, label matrices, lists of k, metrics, permutations, argsort results",
  "All inputs; relation between two functions.",
  ["hub_toolbox/knn_classification.py:predict", "hub_toolbox/knn_classification.py:score"])
p("C123", "DEFECT: predict takes missing sparse distances for zero distances",
  "predict on a sparse matrix is predict on the dense matrix with zeros in place of missing entries (with sample_idx it raises TypeError). So with metric='distance', if k or more objects have no stored distance to object i, all stored distances are positive, and the former carry the same label, that label is predicted for i, whatever the labels of the objects at the stored distances.",
  "all sparse matrices, labels, lists of k, permutations, argsort results",
  "All inputs.",
  ["hub_toolbox/knn_classification.py:predict"])
p("C124", "Gumbel Mutual Proximity of sparse similarities: values and order",
  "With the Gumbel distribution, a known similarity x of objects i and j, i before j and with more than min_nnz stored values, becomes the product of the Gumbel distribution functions of i and j at x, a number in (0,1); unknown similarities become 0, and the mirrored cell is the same unless j has too few stored values. Objects with too few keep their rows; if i has too few but j has not, j's similarity to i is lost. Other self similarities are 1. The result grows strictly with x, and is NaN where an object's similarities have no spread.",
  "all sparse similarity matrices, thresholds, pairs of objects; exact arithmetic",
  "All inputs.",
  ["hub_toolbox/global_scaling.py:_mutual_proximity_gumbel_sparse"])
p("C125", "DEFECT: Gamma Mutual Proximity is NaN for an object with a negative mean or fewer than two training objects",
  "mutual_proximity_gammai accepts distances whose mean to the training objects is negative, and training sets of one object, but the Gamma parameters do not exist then: every distance of such an object becomes NaN, without an exception.",
  "all distance matrices, training sets, pairs of objects; exact arithmetic",
  "All inputs.",
  ["hub_toolbox/global_scaling.py:mutual_proximity_gammai", "hub_toolbox/global_scaling.py:_local_gamcdf"])
p("C126", "load_dexter returns the vectors that the file describes; misplaced and missing features",
  "For a file with up to 300 lines of pairs 'feature:value', features 1 to 20000, load_dexter returns the 300 x 20000 matrix holding for every object and feature the value given last, 0 where there is none, and its cosine distances. Files are accepted exactly if all lines after the 300th are empty, features are in -19999..20000 and values within float64; others raise IndexError or OverflowError. It makes no difference whether lines end with LF, CR LF or CR, and whether the last line ends. DEFECT: features 0 and below are stored as features 20000, 19999, ... DEFECT: an object without features has distance NaN to all others.",
  "all files in that format (any rows, features, values), all class files; the last statement in exact arithmetic",
  "All files.",
  ["hub_toolbox/io.py:load_dexter", "hub_toolbox/distances.py:cosine_distance"])
p("C127", "FreeMemLinux reports numbers by line position; DEFECT: available memory counted as buffers",
  "total, used, used_real, user_free, buffers, cached and swap values are the stated sums of the numbers in lines 1-4, 15 and 16 of /proc/meminfo, in the unit asked for, whatever the lines are called, and shared always equals used. Fewer than 21 lines raise IndexError, '%' of no memory ZeroDivisionError, unknown units an exception. DEFECT: where the third line is MemAvailable, it is reported as buffers and added to the free memory, which then exceeds the total on machines with more than half of the memory free.",
  "all files in the format of /proc/meminfo, all units",
  "All contents of the file.",
  ["hub_toolbox/io.py:FreeMemLinux"])
p("C128", "matrix_split computes the exact batch sizes in floating point; DEFECT: batches larger than the memory",
  "matrix_split, as computed in float64, returns rows per batch = floor(free/(cols*elem_size*nr_matrices)) and the number of batches = rows divided by that, rounded up, without any rounding error; so all rows are covered, no batch is empty, and one batch of all matrices fits into the memory reported as free. If not even one row fits, it raises ZeroDivisionError. DEFECT: because of C127, on current systems the batches can need more than the total memory.",
  "all contents of /proc/meminfo with up to 2^51 bytes, all matrix sizes up to 2^51 rows and 2^53 columns",
  "All sizes; floating-point rounding.",
  ["hub_toolbox/io.py:matrix_split", "hub_toolbox/io.py:FreeMemLinux"])
p("C129", "Hubness is bounded, the bound is attained, complete neighbourhoods have none",
  "For m objects (m at least 2) the hubness S_k lies between -(m-2)/sqrt(m-1) and (m-2)/sqrt(m-1), so values from data sets of different sizes are on different scales. The upper bound is attained whenever one object occurs more often than all others and those occur equally often. If k is at least m-1 and the distances between different objects are finite, every object occurs m-1 times and hubness is 0.",
  "all matrices, k, metrics, shuffles, schedules; the skewness itself in exact arithmetic",
  "All sizes and matrices.",
  ["hub_toolbox/hubness.py:hubness"])
p("C130", "DEFECT: k_skewness_truncnorm_ cannot tell hubs from antihubs",
  "Class Hubness offers the third moment of a truncated normal distribution as a corrected hubness measure. It is a function of the mean and the spread of the k-occurrence alone: reflecting the occurrences at their mean, which turns hubs into antihubs and changes the sign of k_skewness_, leaves it unchanged. It is positive whenever the occurrences are not all equal, also for negative skewness.",
  "all k-occurrence histograms; exact arithmetic; the first statement for any implementation of the moment",
  "All histograms.",
  ["hub_toolbox/hubness.py:Hubness._skewness_truncnorm"])
p("C131", "Renaming the objects renames the hubness result",
  "If the objects of a square distance or similarity matrix are put in another order, hubness returns the same nearest neighbours in the same order of rank under their new names, the same k-occurrence for every object and the same S_k, for any partition implementation, shuffle and random draws, provided no object has two equally near candidates and each has at least min(k, n-1) of them.",
  "all square matrices without ties, all permutations, k, metrics, shuffles",
  "All matrices and permutations.",
  ["hub_toolbox/hubness.py:hubness"])
p("C132", "Renaming the objects renames secondary distances and keeps the Goodman-Kruskal index",
  "If the objects of a symmetric matrix are put in another order, mutual_proximity_empiric, local_scaling and nicdm (of finite distances) and shared_nearest_neighbors (finite values) return the same values in the new order, and goodman_kruskal_index with reordered labels returns the same index, whatever sorting or partition implementation and number of workers either call uses (shared neighbours without ties). Without symmetry this fails: Mutual Proximity takes the distance of two objects from the row of the object with the larger number.",
  "all symmetric matrices, all permutations, k, metrics, labels, workers",
  "All matrices and permutations.",
  ["hub_toolbox/global_scaling.py:mutual_proximity_empiric", "hub_toolbox/local_scaling.py:local_scaling", "hub_toolbox/local_scaling.py:nicdm", "hub_toolbox/shared_neighbors.py:shared_nearest_neighbors", "hub_toolbox/goodman_kruskal.py:goodman_kruskal_index"])
p("C133", "The printed report shows exactly what was computed, with the parameters that were used",
  "For every completed experiment the report printed by analyze_hubness and print_analysis_report shows, under a title that identifies the method, every requested k once in ascending order with the stored hubness, antihub, maximal hub and k-NN values, the Goodman-Kruskal index if classes were given, the embedding dimension and the intrinsic dimension rounded to the nearest integer (ties to even). The parameter values it prints are those the secondary distances were computed with. A call that ends normally prints the headline once, one report per requested experiment in order, and the closing lines; print_analysis_report() then repeats the same reports. If no vectors are given or the intrinsic dimension estimate is finite, printing changes neither the experiments kept nor the exception raised.",
  "all data, names, k lists, outcomes of the computations; all float64 values for rounding",
  "All inputs and histories.",
  ["hub_toolbox/hubness_analysis.py:HubnessAnalysis.print_analysis_report", "hub_toolbox/hubness_analysis.py:HubnessAnalysis.analyze_hubness"])
p("C134", "DEFECT: printing the report of data with a non-finite intrinsic dimension estimate aborts the analysis",
  "If the intrinsic dimension estimate of the vectors is NaN or infinite, analyze_hubness with print_results=True (the default) raises ValueError or OverflowError after the first experiment; the remaining experiments are never performed, although they would be without printing, and print_analysis_report raises as soon as there is an experiment to report. A single NaN coordinate among more than 12 objects is enough, and 13 objects at equal distances give an infinite estimate.",
  "all analyses with vectors, all lists of experiments",
  "All inputs and histories.",
  ["hub_toolbox/hubness_analysis.py:HubnessAnalysis.print_analysis_report", "hub_toolbox/hubness_analysis.py:HubnessAnalysis.analyze_hubness", "hub_toolbox/intrinsic_dimension.py:intrinsic_dimension"])
p("C135", "DEFECT: local DisSim truncates the centroids of integer vectors",
  "dis_sim_local called with vectors stored as integers uses, with one process, every local centroid with its coordinates truncated towards zero instead of the centroid itself; for 0/1 vectors a truncated centroid keeps only the features all k neighbours have. The result is the one of the same numbers stored as floats if all centroids are integral, but values and even the order of neighbours differ in general. With more than one process the call raises TypeError.",
  "all integer vectors, all k, all numbers of processes, one or two sets of vectors",
  "All vectors.",
  ["hub_toolbox/centering.py:dis_sim_local"])
p("C136", "Neighbour based results depend only on how the objects rank each other",
  "If no object is equally far from two others, hubness (neighbours, occurrences and S_k), shared nearest neighbours and leave-one-out k-NN evaluation (accuracy, correctness flags, confusion matrix) give corresponding results for any two matrices in which every object ranks the others alike, whatever the values, the orientation (distances D or similarities -D), the names of the objects, the random draws and the sorting implementation.",
  "all pairs of finite matrices with equal rankings, all k, labels, random draws and sort implementations",
  "All matrices, all random draws.",
  ["hub_toolbox/hubness.py:hubness", "hub_toolbox/shared_neighbors.py:shared_nearest_neighbors", "hub_toolbox/knn_classification.py:score"])
p("C137", "The approximate estimator answers by its last successful fit alone",
  "Whatever calls of fit, transform and predict an ApproximateHubnessReduction object with fixed vantage points has been through, transform and predict after a successful fit (with only transform, predict or refused data in between) give the results, or raise the errors, of one fit and one transform on a fresh object with the same data, settings and sample: same distances, same labels, sec_dist_ and sec_dist_sparse_ of the right shape and with the same entries. In particular predict does not disturb later calls, and n_samples, which Mutual Proximity without sampling overwrites, does not leak into later fits. Before the first successful fit both methods raise the not-fitted error and change nothing.",
  "all histories of calls, all data, samples, labels and settings with fixed vantage points",
  "All histories.",
  ["hub_toolbox/approximate.py:SuQHR.fit", "hub_toolbox/approximate.py:SuQHR.transform", "hub_toolbox/approximate.py:SuQHR.predict"])
p("C138", "DEFECT: a failed refit breaks a fitted approximate estimator",
  "If fit raises on data that are valid as such (for instance fewer objects than n_samples) the object keeps its old model but the number of objects of the failed data. With sampling, every later transform raises ValueError if a vantage point has a number beyond that; otherwise its distances are those of the old model but sec_dist_sparse_ has the width of the failed data. With random sampling a failed fit of fewer than n_samples objects always makes all later transforms fail. Without sampling nothing changes.",
  "all histories of calls, all data, samples and settings with fixed vantage points",
  "All histories and failure points.",
  ["hub_toolbox/approximate.py:SuQHR.fit", "hub_toolbox/approximate.py:SuQHR.transform", "hub_toolbox/approximate.py:SuQHR._sparse_distance_matrix"])
p("C139", "DEFECT: after predict the two forms of the secondary distances contradict each other",
  "After predict the attribute sec_dist_ holds the distances made finite and shifted to be non-negative, while sec_dist_sparse_ holds the original ones if sampling is used (without sampling both are the changed array). The two agree exactly if all distances are finite and non-negative; local DisSim violates this on ordinary data.",
  "all histories of calls, all data, samples and settings with fixed vantage points",
  "All histories.",
  ["hub_toolbox/approximate.py:SuQHR.predict", "hub_toolbox/approximate.py:enforce_finite_distances"])
p("C140", "Local scaling of distances stays in [0,1] in float64; DEFECT: very small or very large units give NaN",
  "In float64, for every matrix of finite distances (sign bit clear), every admissible k, held-out set and number of workers, local scaling returns and every entry is NaN or in [0,1]. If all distances between different objects are between 2^-500 and 2^500 no entry is NaN. DEFECT: if all are below 2^-538, or all are at least 2^512, every entry between different objects is NaN, because squares and products of radii underflow to 0 or overflow; the same objects measured in another unit give ordinary values, although local scaling is scale free.",
  "all float64 distance matrices, all k, held-out sets, worker numbers and schedules, all exponential functions that map non-positive numbers into [0,1]",
  "All float64 matrices; tests use distances of ordinary size.",
  ["hub_toolbox/local_scaling.py:local_scaling"])
p("C141", "Local scaling does not depend on power-of-two units in float64",
  "If all distances of a matrix are multiplied by the same power of two and stay between 2^-500 and 2^500 before and after, local scaling returns the same float64 values: no rounding error depends on the unit. This holds for any exponential function and any numbers of workers in the two calls.",
  "all float64 distance matrices in that range, all powers of two, k, held-out sets, worker numbers, schedules and partition implementations",
  "All matrices and exponents.",
  ["hub_toolbox/local_scaling.py:local_scaling"])
p("C142", "Parametric Mutual Proximity is symmetric and in [0,1] in float64 for every input",
  "In float64, whatever the entries of the input are (also negative, infinite, NaN or not symmetric), a successful call of Gaussian or Gamma Mutual Proximity returns a symmetric matrix with the right self values whose entries are NaN or in [0,1]; so does the Gaussian variant for sparse similarities (values of stored and not stored cells), and all entries of the sampled Gaussian variant are NaN or in [0,1], with the self value where an object meets itself.",
  "all float64 matrices, metrics, held-out sets and samples, all summation orders, all distribution functions with values in [0,1] or NaN",
  "All inputs including degenerate ones.",
  ["hub_toolbox/global_scaling.py:mutual_proximity_gaussi", "hub_toolbox/global_scaling.py:mutual_proximity_gammai", "hub_toolbox/global_scaling.py:mutual_proximity_gaussi_sample"])
p("C143", "Cosine distances are symmetric, zero on the diagonal and not negative in float64",
  "In float64, for every matrix of vectors and whatever the order of summation, cosine_distance returns a symmetric matrix with 0 on the diagonal whose entries are NaN or not negative: rounding cannot make a distance negative or tell d(x,y) from d(y,x).",
  "all float64 matrices, all summation orders",
  "All matrices and roundings.",
  ["hub_toolbox/distances.py:cosine_distance"])
p("C144", "NICDM is never negative in float64",
  "In float64, for every matrix of distances (finite, infinite or NaN, sign bit clear), every k, held-out set, number of workers and schedule, the entries of a NICDM result are NaN or not negative.",
  "all float64 distance matrices, all k, held-out sets, worker numbers and schedules, all summation orders",
  "All matrices.",
  ["hub_toolbox/local_scaling.py:nicdm"])
p("C145", "No call changes an array of the caller",
  "Whatever arrays the caller holds and whichever of them they pass, a call of a secondary distance function (shared neighbours, local scaling, NICDM, Mutual Proximity: empiric, Gaussian, Gamma, simhubIN, and the sampled variants), of hubness, of the k-NN score or of intrinsic_dimension leaves every one of those arrays as it was, whether the call returns or raises. An array that is returned is a new one, and its contents depend only on the contents of the argument.",
  "all sets of (dense) arrays in memory, all choices of the argument, all parameters with n_jobs = 1, all random permutations, all results of numpy's sorting and partitioning routines",
  "All inputs and all exception points; a test sees only the arrays it looks at.",
  ["hub_toolbox/hubness.py:hubness", "hub_toolbox/global_scaling.py:_local_gamcdf", "hub_toolbox/local_scaling.py:local_scaling", "hub_toolbox/shared_neighbors.py:shared_nearest_neighbors", "hub_toolbox/knn_classification.py:score", "hub_toolbox/intrinsic_dimension.py:intrinsic_dimension"])
p("C146", "dis_sim_local leaves the vectors alone, also when both arguments are one array",
  "dis_sim_local(X, Y) changes neither X nor Y, even if both are the same array or Y is left out (when the code works on one copy under two names), and returns a new array with the result that the definition gives for the original vectors, although it subtracts the centroids in place.",
  "all sets of arrays in memory, all choices of X and Y among them, all k, n_jobs = 1, all results of argpartition",
  "All aliasing patterns.",
  ["hub_toolbox/centering.py:dis_sim_local"])
p("C147", "Calls on the same arrays do not influence each other",
  "In any sequence of calls on arrays the caller holds, in any order and with any exceptions in between, each call gives what it would give alone on the original arrays, no later call changes an array that an earlier call returned, and no two results share memory.",
  "all finite sequences of calls, all arrays, all parameters",
  "All histories.",
  ["hub_toolbox/hubness.py:hubness", "hub_toolbox/global_scaling.py:mutual_proximity_gammai", "hub_toolbox/local_scaling.py:nicdm", "hub_toolbox/shared_neighbors.py:simhubIN"])
p("C148", "Seeding: where random_state makes results reproducible and where it is ignored",
  "hubness with n_jobs=1 and a random_state returns the same neighbours and counts on every call, whatever the state of numpy's global generator, and leaves that state alone; so does the first fit of Hubness(metric='precomputed', random_state=s) on sparse distances. Without random_state, hubness with n_jobs=1 does not use the global generator either, so that np.random.seed has no effect on it: the result does not depend on its state, and with one state two calls can give different neighbours. DEFECT: on dense precomputed distances with shuffle_equal, Hubness ignores random_state: all seeds give the same result, and one seed gives different neighbours when the global generator is in different states.",
  "all generators, all states of the global generator, all seeds, matrices and parameters",
  "All generator states and histories of other draws.",
  ["hub_toolbox/hubness.py:hubness", "hub_toolbox/hubness.py:Hubness._k_neighbors_precomputed", "hub_toolbox/hubness.py:Hubness._k_neighbors_precomputed_sparse"])
p("C149", "Forked workers shuffle alike, so that equal distances become hubs",
  "DEFECT: hubness with n_jobs != 1 shuffles with the global generator, of which every forked worker has an equal copy. If all distances are equal and every worker handles at most one row, k objects are neighbours of all others and all but one of the rest of none (with a stable argpartition), although shuffle_equal is meant to prevent this. For any distribution of the rows, k objects have at least m - 1 occurrences each, where m is the number of workers that handle at least t rows, for every t >= 1. And repeating the call with the same distribution of rows gives exactly the same result, because the generator of the caller does not advance.",
  "all generators and states, all sizes, all k < n, all matrices of equal finite distances, all distributions of rows to workers (with at most one row each for the first part); all matrices for the last part",
  "All generator states and schedules.",
  ["hub_toolbox/hubness.py:_hubness_nearest_neighbors", "hub_toolbox/hubness.py:hubness"])
p("C150", "Local scaling in float64 is accurate",
  "If all distances between different objects are float64 numbers between 2^-500 and 2^500, local_scaling (distance metric, any n_jobs, with or without test_ind) succeeds, all its values are finite, and each differs from 1 - exp(-d^2/(r_i r_j)), computed without rounding from the input distance d and the distances r_i, r_j to the k-th nearest neighbours, by at most 2^-50 plus the absolute error of np.exp. No cancellation or overflow of an intermediate quotient can make it worse.",
  "all float64 matrices in that range, all k, test sets, numbers of workers, partition functions and exponential functions with a bounded error",
  "All matrices of floating point numbers.",
  ["hub_toolbox/local_scaling.py:local_scaling", "hub_toolbox/local_scaling.py:_ls_calculate_sec_dist"])
p("C151", "DEFECT: for float32 distances local_scaling depends on n_jobs; a float64 copy is accurate",
  "On a float32 matrix local_scaling computes in float32 with one process and partly in float64 with several. If all distances between different objects are positive and at most 2^-76, one process returns NaN for every pair, several processes return 0 for every pair, whatever the distances are. If the matrix is first converted to float64, the values are right up to 2^-50 and the error of np.exp for all positive float32 distances.",
  "all float32 matrices in the stated range, all k, test sets, numbers of workers and schedules, partition functions; any np.exp that maps NaN to NaN and zero to one",
  "All matrices and schedules; the tests use float64 only.",
  ["hub_toolbox/local_scaling.py:local_scaling", "hub_toolbox/local_scaling.py:_ls_calculate_sec_dist", "hub_toolbox/local_scaling.py:_ls_calculate_r"])
p("C152", "Matrices with an integer dtype are refused, never silently truncated; a float64 copy is right up to 2^53",
  "hubness, local_scaling, nicdm (also their sample variants), shared_nearest_neighbors, simhub, simhubIN, the dense empiric, Gauss and Gamma Mutual Proximity, score and predict never return a value for a non-empty matrix with an integer dtype (and, for score and predict, a non-empty test set): with valid arguments they raise OverflowError (ValueError for Gauss and Gamma Mutual Proximity), because infinity or NaN cannot be stored in an integer array. If all entries are at most 2^53 in absolute value, hubness of the matrix converted to float64 returns the k nearest neighbours by integer comparison; above 2^53 a farther object can be listed as the nearest.",
  "all integer matrices, all parameters, any continuation of the functions after the first store; all partition functions and shuffles for the float64 copy",
  "All integer matrices and parameters; the tests use floats only.",
  ["hub_toolbox/hubness.py:hubness", "hub_toolbox/local_scaling.py:local_scaling", "hub_toolbox/local_scaling.py:nicdm", "hub_toolbox/shared_neighbors.py:shared_nearest_neighbors", "hub_toolbox/global_scaling.py:mutual_proximity_empiric", "hub_toolbox/knn_classification.py:score"])
p("C153", "Predictions of the approximate methods: weighted votes, several outputs, and the other queries of the call",
  "For every output, SuQHR.predict returns for each query the label with the most weight among the K nearest candidates (the smallest such label): one vote each with uniform weights, inverse distances with knn__weights='distance', where the distances are shifted by one number per call so that none is negative and candidates at distance 0 silence the others; too large a K raises ValueError. If all distances are finite and those of a query differ, its prediction does not depend on the other queries of the call for uniform weights, and for weights by distance if no secondary distance is negative. DEFECT: local centering gives negative distances. Then the query with the smallest distance of the call is classified by its nearest candidate alone, whatever K is, and the same query with the same distances can get another label when other queries are in the call. DEFECT: infinite distances count as the largest finite one of the call, so a query alone may be given the label of an object at infinite distance instead of that of a nearer one, and not in a larger call.",
  "all matrices of (secondary) distances, all K, labels, outputs, argpartition and argsort functions",
  "All matrices and all sets of other queries.",
  ["hub_toolbox/approximate.py:SuQHR._predict_knn", "hub_toolbox/approximate.py:SuQHR.predict", "hub_toolbox/approximate.py:enforce_finite_distances"])
p("C154", "Parameters of the approximate estimator: rebuilding, set_params, and what fit does to them",
  "An SuQHR object can always be rebuilt from its get_params(): names in any case, 'none' and n_jobs=-1 are normalised once and for all. DEFECT: the keyword options are not among the parameters, so a copy (clone, grid search, cross validation) votes with 5 neighbours whatever knn__n_neighbors was, raises ValueError where fewer than 5 candidates exist, and can return other labels; set_params refuses these options although the constructor takes them. DEFECT: fit without sampling overwrites the parameter n_samples with the number of training objects for MP and MPG; if the object is then switched to random sampling, it refuses all data that are not larger, although the number of samples it was constructed with would do. DEFECT: set_params accepts every value, also those the constructor refuses.",
  "all constructor arguments, all sequences construct / get_params / set_params / fit as stated, all data and labels",
  "All parameter combinations and all data.",
  ["hub_toolbox/approximate.py:SuQHR.__init__", "hub_toolbox/approximate.py:SuQHR._predict_knn", "hub_toolbox/approximate.py:SuQHR._fit_mp", "hub_toolbox/approximate.py:SuQHR._fit_mpg"])
p("C155", "DEFECT: the approximate estimator may share its training data with the caller",
  "If the caller writes to the arrays passed to SuQHR.fit afterwards, then: with random or kmeans++ sampling, or data whose dtype is not float32, transform answers as if nothing had been written. Without sampling, float32 data are shared: with no hubness reduction and with MP, transform answers as if the object had been fitted to the present contents (and raises ValueError if these are not finite); LS, NICDM, MPG and DSL combine distances to the present contents with the radii, moments or centroids of the old ones, so that the answer can belong to neither. predict votes with the present labels if these are int32 and nothing was sampled, with those at the time of fit otherwise. All this holds after any sequence of transforms, predictions and writes. (scikit-learn 0.21 or later, which ignores stored norms of float32 rows.)",
  "all data, labels, parameters, all sequences of transform, predict and assignments after a successful fit; fixed vantage points",
  "All histories of calls and assignments.",
  ["hub_toolbox/approximate.py:SuQHR.fit", "hub_toolbox/approximate.py:SuQHR.transform", "hub_toolbox/approximate.py:SuQHR.predict"])
p("C156", "The Hubness object over several fits: measures are current, k_neighbors_ may be stale, the generator goes on",
  "Whatever happened to a Hubness object before, after a successful fit_transform its indices (skewness, Gini, Robin Hood, Atkinson, hubs, antihubs and their occurrence, groupie ratio) are those of this fit, also after any later assignments to parameters and failed fits of data with at least one indexed object. DEFECT: k_neighbors_ is that of the last successful fit with return_k_neighbors=True, so it can belong to other data than the indices. A fit of an empty matrix raises ZeroDivisionError after it has overwritten the distribution indices but not the hubs. With a random_state number, the fits of one object to two sparse distance matrices find the same neighbours as one fit to the stacked matrices, whatever uses the global generator in between: a second fit of the same matrix can find other neighbours than the first.",
  "all data, parameters, generators, all sequences of fits (successful or not), assignments to parameters and uses of the global generator",
  "All histories of the object.",
  ["hub_toolbox/hubness.py:Hubness.fit_transform", "hub_toolbox/hubness.py:Hubness.__init__", "hub_toolbox/hubness.py:Hubness._k_neighbors_precomputed_sparse"])
p("C157", "DEFECT: parallel results are right only if worker processes are started by fork",
  "With n_jobs > 1 the result arrays are shared with worker processes that are forked, so that every outcome is one covered by the properties on n_jobs (equal to the result of one process). With the other start methods of multiprocessing (spawn: the default on Windows and macOS; forkserver: the default on Linux since Python 3.14) workers get copies, and what they compute is lost without any error: hubness and the class Hubness report object 0 as the nearest neighbour of all objects, N_k = (n k, 0, ..., 0); local_scaling, nicdm, shared_nearest_neighbors and approximate Mutual Proximity return 0 for all pairs; simhubIN returns distance 1 for all pairs; localized_centering returns plain cosine similarities; dis_sim_local returns -2<x,y>. None of this depends on the distances. Only the sparse empiric Mutual Proximity, which passes the shared array itself to its workers, is right for every start method.",
  "all input matrices, all parameters, all numbers of workers, all schedules of workers, the three start methods",
  "All inputs, schedules and platforms; tests run on one platform.",
  ["hub_toolbox/hubness.py:hubness", "hub_toolbox/local_scaling.py:local_scaling", "hub_toolbox/shared_neighbors.py:shared_nearest_neighbors", "hub_toolbox/shared_neighbors.py:simhubIN", "hub_toolbox/centering.py:localized_centering", "hub_toolbox/centering.py:dis_sim_local", "hub_toolbox/approximate.py:SuQHR._transform_mp"])

p("C158", "The accuracy of NICDM in float64",
  "NICDM computed in double precision is close to its formula g d_ij / sqrt(r_i r_j), where r_i is the mean distance of i to its k nearest training objects and g the geometric mean of all r_i: if all distances between different objects are between 2^-300 and 2^300, the relative error of every entry is at most 750 eps, where eps (between 2^-53 and 2^-20) bounds the relative errors of np.sum, np.log and np.exp on the numbers in question. If np.sum adds from left to right and np.log and np.exp are correctly rounded, the error is at most 750 n 2^-52. In particular nothing overflows, underflows or becomes NaN, and the diagonal is 0.",
  "all square float64 distance matrices with entries in that range, all n up to 2^53 (2^30 for the second part), all k smaller than the number of training objects, all test sets, all job counts and schedules, all functions np.sum, np.log, np.exp within the bounds",
  "Every rounding error of every intermediate result for all matrices.",
  ["hub_toolbox/local_scaling.py:nicdm", "hub_toolbox/local_scaling.py:_local_geomean"])

p("C159", "The accuracy of the hubness value in float64",
  "The hubness value S_k that is returned in double precision is the exact skewness of the k-occurrences up to a relative error of 10 eps, where eps bounds the relative error of the power 1.5, whichever order np.sum adds in, if the number n of objects and k satisfy 2 n^3 k < 2^53 (for k = 10: n up to 76000); the intermediate sums are then exact. In particular it is 0 exactly if the occurrences are not skewed at all, its sign is never wrong, and no call returns NaN. The same holds for the attribute k_skewness_ of the class Hubness when there are as many queries as training objects.",
  "all square matrices of that size, all metrics, k, shuffles, job counts and schedules, all orders of summation, all thresholds scipy uses for a vanishing variance",
  "Every rounding error for all neighbour graphs.",
  ["hub_toolbox/hubness.py:hubness", "hub_toolbox/hubness.py:_hubness_no_multiprocessing", "hub_toolbox/hubness.py:Hubness"])

p("C160", "The accuracy of cosine distances in float64; DEFECT: small angles are lost",
  "cosine_distance computed in double precision differs from 1 - cos of the two vectors by at most 24 eps, if no vector is 0 and all entries are 0 or of a size between 2^-140 and 2^140, where eps (between 2^-53 and 2^-20) bounds the relative error of sums; with summation from left to right in m dimensions the error is at most 24 m 2^-52. So objects are ranked right as neighbours unless their cosines differ by 48 eps or less. The bound is absolute, not relative: two vectors with different directions can get distance 0, as if they were duplicates.",
  "all float64 matrices with entries of that size, all dimensions up to 2^53 (2^30 for the second bound), all summation functions within the error bound",
  "Every rounding error for all vectors.",
  ["hub_toolbox/distances.py:cosine_distance"])

p("C161", "Killed worker processes never corrupt a result; DEFECT: the call then never returns",
  "If worker processes are killed while a parallel call runs (n_jobs > 1; for example because memory runs out), at any moment and any number of them, the call never returns a wrong or incomplete result: whatever hubness, the class Hubness, local_scaling, nicdm, shared_nearest_neighbors, simhubIN, localized_centering, dis_sim_local, the approximate and the sparse empiric Mutual Proximity return is a result without killed workers (the result of one job). DEFECT: after a worker was killed while it worked on a task, no continuation returns or raises because of it: the lost task is waited for for ever. A worker killed while it waits for a task does no harm, unless it held the lock of a queue. Without such deaths a pool of at least one worker always ends: it can always go on until all results are there and cannot go on for ever.",
  "all input matrices and parameters, all numbers of workers, all chunkings of the tasks, all schedules, all moments at which workers are killed, any number of killed workers",
  "All crash points in all schedules; hanging for ever cannot be observed.",
  ["hub_toolbox/hubness.py:hubness", "hub_toolbox/hubness.py:Hubness._k_neighbors", "hub_toolbox/local_scaling.py:local_scaling", "hub_toolbox/local_scaling.py:nicdm", "hub_toolbox/shared_neighbors.py:shared_nearest_neighbors", "hub_toolbox/shared_neighbors.py:simhubIN", "hub_toolbox/centering.py:localized_centering", "hub_toolbox/centering.py:dis_sim_local", "hub_toolbox/global_scaling.py:_mutual_proximity_empiric_sparse", "hub_toolbox/approximate.py:SuQHR._transform_mp"])

p("C162", "DEFECT: boolean masks and negative indices of held-out objects are misread",
  "The objects to hold out in local_scaling, nicdm, centering and weighted_centering (whose parameter is called test_set_mask) and in Gaussian and Gamma Mutual Proximity must be given as non-negative positions, in any order and with repetitions; values outside 0..n-1 are ignored. A boolean mask is not refused but read as the numbers 0 and 1: every mask that marks some objects and leaves some unmarked gives the result for holding out objects 0 and 1, whichever objects it marks; a mask that marks nothing holds out object 0, a mask that marks all holds out object 1 only. A negative index, which counts from the end elsewhere in Python, holds out nothing. So for every mask that does not mark exactly objects 0 and 1 and for every negative index -n..-1 there is data that centering centers at the wrong mean.",
  "all input matrices, parameters, job counts and schedules, all masks and index arrays of any length",
  "All masks and index arrays; the tests pass positions.",
  ["hub_toolbox/local_scaling.py:local_scaling", "hub_toolbox/local_scaling.py:nicdm", "hub_toolbox/centering.py:centering", "hub_toolbox/centering.py:weighted_centering", "hub_toolbox/global_scaling.py:mutual_proximity_gaussi", "hub_toolbox/global_scaling.py:mutual_proximity_gammai"])
p("C163", "Secondary distances can be computed from secondary distances in float64; DEFECT: local scaling of shared-neighbour distances gives NaN",
  "Any number of calls of mutual_proximity_empiric, shared_nearest_neighbors, local_scaling and nicdm, each on the result of the one before, with any numbers of jobs, ends without an exception and with a proper distance matrix: square, finite, not negative, symmetric, zero diagonal. This holds for every square matrix of float64 numbers to start from, when every local_scaling and nicdm comes after a mutual_proximity_empiric with at most two nicdm in between, or when the first matrix holds distances between 2^-53 and 1. DEFECT: shared_nearest_neighbors followed by local_scaling(k) gives NaN between all objects of any group of more than k objects that have the same nearest neighbours.",
  "all numbers of objects up to 2^53, all square float64 matrices, all sequences of calls of any length that meet the rule, all neighbourhood sizes below the number of objects, all numbers of jobs and schedules, all np.exp, np.log and sums with the stated accuracy, all results np.partition and np.argpartition may give",
  "Each call's hypotheses on its input (finite, positive, neither too large nor too small) must follow from what the call before guarantees for every input; tests run single calls on a few data sets, where products neither underflow nor vanish",
  ["hub_toolbox/global_scaling.py:mutual_proximity_empiric", "hub_toolbox/shared_neighbors.py:shared_nearest_neighbors", "hub_toolbox/local_scaling.py:local_scaling", "hub_toolbox/local_scaling.py:nicdm"])
p("C164", "The Robin Hood and Atkinson indices are accurate in float64",
  "For all occurrence counts with a positive sum below 2^52: the Robin Hood index that class Hubness reports is a finite number that differs from half the mean absolute deviation divided by the mean by at most 6 eps, and the Atkinson index (parameter 3/4) differs from one minus the mean of order 1/4 divided by the mean by at most 36 eps, where eps bounds the relative errors of np.sum and np.power. If there are as many queries as indexed objects (the mean is then k), the Robin Hood index is the correctly rounded value, whatever the order of summation; it is at least 0, below 1, and 0 exactly if all objects occur equally often.",
  "all lists of non-negative occurrence counts (sum below 2^52, any length up to 2^53), all summation orders, all power functions with the stated error, all data, metrics, neighbourhood sizes and job counts of class Hubness",
  "All occurrence vectors and all summation orders; the tests compare a few values on example data",
  ["hub_toolbox/hubness.py:Hubness._hood_index", "hub_toolbox/hubness.py:Hubness._atkinson_index", "hub_toolbox/hubness.py:Hubness.fit_transform"])
p("C165", "Which secondary distances obey the triangle inequality",
  "Shared-neighbour distances obey the triangle inequality up to 3*2^-52, and exactly if the number of neighbours is a power of two; otherwise rounding can break it. Empirical mutual proximity turns every ultrametric into an ultrametric, with no rounding error. Mutual proximity, local scaling, NICDM (each applied to a metric) and the cosine distance do not obey the triangle inequality in general.",
  "all square distance matrices (any float64 values, NaN and infinities included) and neighbourhood sizes for shared neighbours; all ultrametric float64 matrices for mutual proximity; one metric each for the counterexamples",
  "All matrices and all triples of objects; tests look at example matrices and the violations by rounding are in the last bit",
  ["hub_toolbox/shared_neighbors.py:shared_nearest_neighbors", "hub_toolbox/global_scaling.py:mutual_proximity_empiric", "hub_toolbox/local_scaling.py:local_scaling", "hub_toolbox/local_scaling.py:nicdm", "hub_toolbox/distances.py:cosine_distance"])
p("C166", "Centring vectors is accurate in float64",
  "For float64 data of absolute value at most 2^300: every centred entry differs from x - mean by at most one rounding of that difference plus 3 eps times the mean absolute value of the column (plus 2^-999), where eps bounds the relative error of np.sum; the column means of the centred training objects are at most 5 eps times the mean absolute value (plus 2^-999). Centring a second time changes an entry (for data of absolute value at most 2^297) by at most two roundings of x - mean plus 12 eps times the mean absolute value (plus 5 * 2^-1000).",
  "all float64 matrices of moderate entries with any numbers of rows (up to 2^53) and columns, all held-out sets that leave a training object, all summation orders with the stated error",
  "All matrices and summation orders; cancellation makes the error depend on the data, tests use small examples",
  ["hub_toolbox/centering.py:centering"])
p("C167", "The hubness function and the Hubness class agree",
  "If all distances of a square matrix are finite, every object is strictly nearer to itself than to the others and no two others are equally far from it, then for every 1 <= k < n hubness() (one process or many) and Hubness(metric='precomputed') with has_self_distances=True both succeed and give the same neighbour lists (the k nearest others, nearest first) and the same occurrence counts, whatever the shuffles, the partition order, batch size and number of workers. hubness_from_vectors() and Hubness on vectors give what hubness() gives on the matrix of their distances. Where they part: for k >= n the function takes n - 1 neighbours and the class raises ValueError; without has_self_distances the class lists every object as its own first neighbour, followed by what the function finds for k - 1; on a rectangular matrix without ties they agree if no distance is zero, but a training object at distance zero is never listed by the function and listed first by the class.",
  "all float64 distance matrices with the stated order, all k, all shuffles, all partitions within numpy's contract, all batch sizes and schedules",
  "All matrices, shuffles and schedules; tests look at example data",
  ["hub_toolbox/hubness.py:hubness", "hub_toolbox/hubness.py:_hubness_no_multiprocessing", "hub_toolbox/hubness.py:hubness_from_vectors", "hub_toolbox/hubness.py:Hubness.fit_transform", "hub_toolbox/hubness.py:Hubness._k_neighbors_precomputed"])
p("C168", "Empiric Mutual Proximity on sparse matrices with unordered column indices",
  "mutual_proximity_empiric on a csr similarity matrix: if the column indices of every row are stored in ascending order, the call leaves the matrix as it was and its outcome is the one the other properties describe. DEFECT: a csr matrix need not have ordered indices (products of sparse matrices do not). Then after every returning call the column indices of the caller's matrix have been sorted while its values stayed in place: an unordered row with pairwise different values now states other similarities. Rows that keep their original values (at most min_nnz entries) are taken from the corrupted matrix, and since the cell to write is looked up by binary search in unordered indices, similarities get lost. A call that raises leaves the matrix alone.",
  "all csr matrices without duplicate indices in a row, all min_nnz and test sets, all schedules of the workers, every binary search that is right on ordered lists",
  "All index orders; the tests build their csr matrices from dense ones, whose indices are ordered",
  ["hub_toolbox/global_scaling.py:mutual_proximity_empiric", "hub_toolbox/global_scaling.py:_mpes_sec_dist", "hub_toolbox/global_scaling.py:_mutual_proximity_empiric_sparse"])
p("C169", "Mutual Proximity never changes a sparse matrix of its caller",
  "A call of mutual_proximity_gaussi or mutual_proximity_gammai on a csr matrix leaves every matrix that existed before the call as it was, whether it returns or raises, and a returned matrix is a new one with exactly the entries the other properties speak of; so do any number of tasks of mutual_proximity_empiric carried out by a worker on the matrix (computing the values; for its assembly see C168). The Gaussian variant squares the values of its training rows in place without a copy: this is harmless only because slicing a csr matrix copies; if a slice were a view, as it is for numpy arrays, the caller's similarities would be squared.",
  "all contents of memory, all sparse matrices and test sets, all task sequences",
  "All matrices and memory contents; a test compares one matrix before and after",
  ["hub_toolbox/global_scaling.py:mutual_proximity_gaussi", "hub_toolbox/global_scaling.py:_mutual_proximity_gaussi_sparse", "hub_toolbox/global_scaling.py:_mutual_proximity_gammai_sparse", "hub_toolbox/global_scaling.py:_mpes_sec_dist"])
p("C170", "mp_dissim from several threads",
  "A call of mp_dissim that no other call of the same process overlaps returns what it would return as the first call of the process, whatever calls came before it and however they ended. Calls that do overlap (threads) share two module-level names. If all of them make their bins from the same data in the same way, with bins of equal width (or bins of equal mass when the equal steps through the sorted data reach the last object by themselves), every call still returns its own result under every schedule. Under any schedule of any calls a returned matrix has the right shape and an exception is an AssertionError, ValueError, ZeroDivisionError or IndexError. DEFECT: for any two calls with other data and equally many features and bins there is a schedule in which both return and the first one counts the data masses in the other call's data (with one bin every entry is wrong if the data sets differ in size); and two calls with the same data and bins of equal mass whose last position has to be appended may both raise ValueError although each of them would return a result alone.",
  "all numbers of calls, all arguments, all interleavings of the steps of the calls, all moments at which worker processes are forked, all distributions of tasks over workers, all earlier histories",
  "All schedules of threads and forks; tests make one call at a time",
  ["hub_toolbox/distances.py:mp_dissim", "hub_toolbox/distances.py:_mp_find_bin_edges", "hub_toolbox/distances.py:_mp_calc_histograms", "hub_toolbox/distances.py:_mp_create_r_bins", "hub_toolbox/distances.py:_mp_estimate_r"])
p("C171", "Sparse Gamma Mutual Proximity stores NaN for objects no Gamma distribution fits",
  "DEFECT (no warning, no exception): if the known similarities of an object to others are fewer than two, all equal or negative on average, then every value mutual_proximity_gammai of a csr matrix computes between this object and any other one is NaN and is stored as such, also between objects without a stored similarity: the result has more stored entries than the input. These are the only NaN: between two objects that have at least two known similarities, not all equal and of positive mean, the value is a number. In particular, all computed values of an unweighted graph (one and the same similarity wherever there is one) are NaN.",
  "all sparse similarity matrices, thresholds, pairs of objects, special functions that return NaN for NaN, roundings that keep NaN",
  "Infinitely many matrices; the tests use random similarities without isolated objects.",
  [GS+"_mutual_proximity_gammai_sparse", GS+"_local_gamcdf"])
p("C172", "DEFECT: mp_dissim works only if worker processes are started by fork",
  "With forked workers mp_dissim has exactly the outcomes the properties on mp_dissim speak of. With the other start methods of multiprocessing (spawn: the default on Windows and macOS; forkserver: the default on Linux since Python 3.14) no call ever returns a result, with any number of jobs including 1: every call on data with at least one feature raises an exception, and whenever forked workers can return a result the exception is a NameError, because the workers read module-level names that only the calling process has set.",
  "all data, all parameters, all numbers of workers, all schedules, the three start methods",
  "All inputs, schedules and platforms; tests run on one platform.",
  ["hub_toolbox/distances.py:mp_dissim", "hub_toolbox/distances.py:_mp_find_bin_edges", "hub_toolbox/distances.py:_mp_create_r_bins", "hub_toolbox/distances.py:_mp_estimate_r"])
p("C173", "Random numbers in hubness; DEFECT: with worker processes the rows are shuffled by the same permutations",
  "hubness shuffles every row of distances so that ties are broken at random. With one process and random_state=s, row i is shuffled by the i-th permutation of a generator seeded with s, so the result is a function of the arguments. DEFECT: with n_jobs > 1 every worker process inherits the same state of numpy's global generator, and the permutation of a row depends only on how many rows its worker had taken before: rows at the same turn of different workers are shuffled alike. So two queries with the same distances to other objects (n_jobs > 1, n x m matrix) at the same turn get the same neighbours. If there are as many workers as queries and each takes one, and all queries have the same distances (for example all equal), then the same k objects are the neighbours of all queries: k objects occur n times each and all others never, the high hubness that the shuffle is meant to avoid. The result depends on the schedule even if the state of the generator is the same. The generators here are advanced row by row, in the order in which the rows are handed out; this is shown to give exactly the runs that C148 (one process) and C149 (workers) speak of.",
  "all float64 matrices, all generators of permutations and their states, all numbers of workers, all distributions of the rows over workers, all results np.argpartition may give",
  "All generators, seeds and schedules; a test sees one schedule, and results without ties do not depend on it.",
  ["hub_toolbox/hubness.py:hubness", "hub_toolbox/hubness.py:_hubness_nearest_neighbors", "hub_toolbox/hubness.py:_hubness_no_multiprocessing"])
p("C174", "Random numbers in score and r_precision",
  "score (dense) and r_precision shuffle with numpy's global generator. For every state of the generator and every distribution of the work over forked workers, a call is one of the runs with arbitrary permutations that C20-C24 and C100-C105 speak of (for score: if no test index is repeated). r_precision hands out objects in chunks of 100: up to 100 objects are all handled by one worker, so that the result is a function of the arguments and the state of the generator (np.random.seed), whatever n_jobs and the schedule. DEFECT: with more objects every worker starts with the same copy of the generator: if all objects have equally many stored finite non-zero similarities (at least 2) and a mate, object i is shuffled by the permutation whose number is the number of objects its worker had before, so objects of different workers are shuffled alike, and two objects with equal label and equal similarities then get the same precision and neighbour labels, ties included. And the result depends on the schedule even if the generator is seeded.",
  "all generators of permutations and states, all matrices, labels, parameters, all numbers of workers and distributions of chunks",
  "All generators, states and schedules; tests use small matrices (one chunk) without ties.",
  ["hub_toolbox/knn_classification.py:score", "hub_toolbox/knn_classification.py:r_precision", "hub_toolbox/knn_classification.py:_r_prec_worker"])
p("C175", "Stored NaN values and zeros in r_precision; DEFECT: similarities are attributed to the wrong object",
  "r_precision drops stored NaN values and explicitly stored zeros at different places. For matrices of matching size in which every object that shares its label has a stored value, the call raises IndexError exactly if such an object has a stored value that is not NaN and whose rank among the stored entries of the row is at least the number of stored non-zero entries. Otherwise it returns, and the precision of object i with R mates is the share of the mates among R objects chosen as follows: the similarities that are not NaN are ranked; without NaN the first R + 1 of them are the largest, with q <= R NaN only the first R + 1 - q are sure to be; the first is skipped; and a similarity at rank r among the stored entries is taken for the r-th non-zero entry. Without stored zeros every similarity is taken for its own object. DEFECT: with a stored zero and a NaN in a row, the most similar object is mistaken for another, even for the one whose similarity is NaN. DEFECT: with a single NaN in a row and no zero, R nearest neighbours need not be the most similar ones: np.argpartition may leave a less similar object there.",
  "all float64 sparse matrices, labels, permutations, all results np.argpartition may give",
  "All patterns of stored values; tests store neither NaN nor zeros.",
  ["hub_toolbox/knn_classification.py:r_precision", "hub_toolbox/knn_classification.py:_r_prec_worker"])
p("C176", "Stored NaN values and zeros in score (sparse); DEFECT: similarities are attributed to the wrong object",
  "score without test_set_ind on a sparse matrix of matching size without empty rows and with a valid metric raises IndexError exactly if some row has a stored value that is not NaN and whose rank among the stored entries is at least the number of stored non-zero entries. Otherwise it returns consistent tables, and for every object there is one ranking of its stored values other than NaN, whose first k + 1 - q entries are sure to be the largest for each k (q <= k the number of NaN in the row) and whose first entry is skipped; each similarity is taken for the object at the same rank among the non-zero entries; without any further entry the object is 'unknown', otherwise its predicted label is the label of such an object; and if for all k so far one of the first k of these objects has a finite similarity, it is elected by those with finite similarity. DEFECT: with a stored zero and a NaN in a row the label of a wrong object decides. DEFECT: with a single NaN and no zero the result depends on entries np.argpartition leaves in any order.",
  "all float64 sparse matrices, labels, lists of k, metrics, permutations, all results np.argpartition may give",
  "All patterns of stored values; tests store neither NaN nor zeros.",
  ["hub_toolbox/knn_classification.py:score"])
p("C177", "The accuracy value of score in float64: error bound, and comparisons are exact",
  "For up to 2^50 evaluated objects the accuracy that score returns (leave-one-out, to a sample, for test objects, and for sparse matrices it accepts) is finite and differs from (correct objects)/(objects) by at most 2^-52 per correct object; so it exceeds 1 (C21) by at most n * 2^-52. Comparing the accuracies of two leave-one-out evaluations of n objects compares the numbers of correct objects: one is smaller exactly if fewer objects were correct, and they are equal, bit for bit, exactly if the numbers are equal.",
  "all float64 matrices with up to 2^50 rows, labels, lists of k, metrics, permutations, all results np.argsort and np.argpartition may give",
  "All numbers of objects and of correct objects; tests compare a few values with a tolerance.",
  ["hub_toolbox/knn_classification.py:score"])
p("C178", "Local scaling and NICDM to a sample in float64: error bounds, and the misplaced self cells",
  "For distances to a sample between 2^-500 and 2^500 every value local_scaling returns is finite, and it differs from 1 - exp(-d^2/(r_i r_j)) by at most eps + 2^-50, where eps bounds the error of np.exp and the r are the k-th smallest distances to other objects of the sample; with test_ind the self cells are 0. For distances between 2^-300 and 2^300 nicdm's values have relative error at most 750 eps, with the mean of the k smallest distances and the geometric mean over all objects. Without test_ind (DEFECT, C16) the cells (j, j) are 0 even if object j is not the j-th sample, and the distance of a sample to itself in another column is within eps + 2^-50 of 1 (local scaling), +infinity (NICDM).",
  "all float64 matrices with entries in the range outside the self cells, samples, neighbourhood sizes, test_ind, all results np.partition may give, every exp, log and sum of the given accuracy",
  "Holds for every rounding of every intermediate value; tests compare a few matrices with a tolerance.",
  ["hub_toolbox/local_scaling.py:local_scaling", "hub_toolbox/local_scaling.py:nicdm"])
p("C179", "Empiric Mutual Proximity and shared neighbours in float64: error bound, and comparisons are exact",
  "For up to 2^50 objects (sampled objects, neighbours) every value of empiric Mutual Proximity (full, to a sample) and of shared nearest neighbours (full, to a sample; the cells treated as self distances, see C16, aside) is finite and within 2^-52 of the share of objects it stands for. Comparing two values of one result compares the numbers of objects: a distance is smaller exactly if more third objects are farther from both (more neighbours are common), and two values are equal, bit for bit, exactly if the numbers are equal. So rounding neither creates nor breaks a tie in secondary distances.",
  "all float64 matrices (similarities below +infinity) with up to 2^50 rows, both metrics, samples, test_ind, neighbourhood sizes, all results np.argpartition may give, all pairs of values",
  "All pairs of counts and all n; the claim fails without a bound on n and needs every rounding to be considered.",
  ["hub_toolbox/global_scaling.py:mutual_proximity_empiric", "hub_toolbox/shared_neighbors.py:shared_nearest_neighbors", "hub_toolbox/shared_neighbors.py:snn_sample"])
p("C180", "The Goodman-Kruskal index in float64 beyond 2^53 quadruples",
  "For up to 2^40 objects and fewer than 2^63 quadruples (not only up to 2^53, as in C17) goodman_kruskal_index returns a finite number in [-1, 1] that differs from (Q_c - Q_d)/(Q_c + Q_d) by at most 2^-50 times (number of classes + 1). For matrices without negative entries off the diagonal sparse_goodman_kruskal_index returns the same number, bit for bit, whatever the size.",
  "all symmetric float64 matrices without NaN off the diagonal with up to 2^40 rows and fewer than 2^63 quadruples, integer labels, both metrics, every stable np.argsort and every np.sort",
  "20000 objects already have more than 2^53 quadruples; no test runs matrices of this size, and the claim ranges over all of them.",
  ["hub_toolbox/goodman_kruskal.py:goodman_kruskal_index", "hub_toolbox/goodman_kruskal.py:sparse_goodman_kruskal_index"])
p("C181", "r_precision and its worker processes: order, start methods, killed workers, end of the call",
  "Whatever order the workers of r_precision take their chunks and send their results in, however the processes are started and whichever of them are killed at whatever moment: a call that ends returns, or raises, what the same work does object after object (for the same random draws), every value at the position of its object. With at least one worker and no killed one the call always ends: no order of the steps blocks, and m chunks and p workers make at most 3m + p steps. After a worker was killed while it had a chunk the call does not return any more; it can only raise, and only what an object before that chunk raises.",
  "all matrices, labels, parameters and random draws, all numbers of workers and chunk sizes, all schedules, all moments at which any workers are killed",
  "All schedules and crash points; that a call hangs for ever cannot be observed.",
  ["hub_toolbox/knn_classification.py:r_precision", "hub_toolbox/knn_classification.py:_r_prec_worker", "hub_toolbox/knn_classification.py:_load_shared_csr"])
p("C182", "mp_dissim is never corrupted by killed worker processes",
  "If worker processes of mp_dissim are killed, at any moment and any number of them, a call that ends still returns the m_p dissimilarities, or raises the exception, of a call with any number of workers none of which is killed. With at least one worker the call can always end. The bin edges come from Pool.map: whatever order its tasks end in, it gives the results in the order of the tasks or the exception of one of them, and after a worker was killed with a chunk it does not return any more.",
  "all matrices X and Y, p, numbers of bins, bin sizes, numbers of workers, chunk sizes, schedules, all moments at which any workers are killed",
  "All schedules and crash points of four parallel phases.",
  ["hub_toolbox/distances.py:mp_dissim", "hub_toolbox/distances.py:_mp_calc_histograms", "hub_toolbox/distances.py:_mp_create_r_bins", "hub_toolbox/distances.py:_mp_estimate_r", "hub_toolbox/distances.py:_mp_calc_mp_dissim"])
p("C183", "The hub threshold hub_size*k of the class Hubness in float64; DEFECT: ties with decimal hub sizes",
  "After fit_transform every training object with at least hub_size*k occurrences is in hubs_, also with exactly as many (the documentation says more than hub_size*k). Conversely a hub has at least hub_size*k*(1 - 2^-53) occurrences, and at least hub_size*k where this product is a float64 number. If hub_size is the float64 number nearest to a number d, objects with at least d*k*(1 + 2^-53) occurrences are hubs and objects with fewer than d*k*(1 - 2^-52) are not, so that only objects with just d*k occurrences can be misplaced. DEFECT: they are: with hub_size = 1.1 and k = 50 an object with 55 occurrences is no hub, though with hub_size = 1.5 one with 75 is.",
  "all inputs that fit_transform accepts, all finite hub sizes from 2^-1022 on, up to 2^53 queries and neighbours, all numbers d",
  "The rounding of hub_size*k depends on both in ways no finite set of cases shows.",
  ["hub_toolbox/hubness.py:Hubness._hub_occurrence", "hub_toolbox/hubness.py:Hubness.fit_transform"])
p("C184", "Renaming the classes renames the result of score; DEFECT: not with a test set",
  "If the class labels are replaced by others in the same order, score returns exactly the same result, whatever its other arguments. If they are replaced by any other distinct labels, leave-one-out classification (every object with a finite neighbour, k at least 1) returns the same accuracies and the same correctness flags, and the confusion matrix of the new names is the old one with its rows and columns moved to the places of the new names. With test_set_ind=[0] this fails: whatever the matrix and the labels (at least two classes), there are names under which object 0 counts as correctly classified and names under which it does not.",
  "all square matrices of float64 numbers, labels, lists of k, both kinds of metric, all renamings, all random choices",
  "All renamings of the classes, with all ties of distances and votes.",
  ["hub_toolbox/knn_classification.py:score"])
p("C185", "DEFECT: score drops the fractions of float class labels, the Goodman-Kruskal index does not",
  "Class labels given as float64 numbers (HubnessAnalysis stores them so) are safe if they are whole numbers up to 2^53: score and goodman_kruskal_index then return what they return for the integers. Otherwise score rounds every label towards zero: labels with the same integer part are one class, and if all labels lie strictly between -1 and 1, every object counts as correctly classified, whatever the matrix. goodman_kruskal_index distinguishes all labels that are different numbers. So the two measures can contradict each other: there is a matrix with labels 0.25 and 0.75 for which every object is classified correctly and the Goodman-Kruskal index is -1.",
  "all square matrices of float64 numbers, all finite labels below 2^63, lists of k, both kinds of metric, all random choices",
  "All labels, matrices and random choices; tests use whole numbers as labels.",
  ["hub_toolbox/knn_classification.py:score", "hub_toolbox/goodman_kruskal.py:goodman_kruskal_index", "hub_toolbox/hubness_analysis.py:HubnessAnalysis.__init__"])
p("C186", "Several k at once in score; DEFECTS: k=0 disturbs the others, isolated objects vote for themselves",
  "If every object has a finite neighbour and all k are at least 1, leave-one-out classification gives for each k of a list what a call with this k alone gives (with the same shuffling of equal distances), and all k from the number of objects on give the same. DEFECT: k=0 is accepted, and the values after it are evaluated with neighbours in random order: there are data and random choices for which k=1 alone classifies every object correctly and k=[0,1] none for k=1. DEFECT: an object all of whose distances are infinite is classified by k objects drawn from all objects, itself included: it counts as correct exactly if its label is elected among those drawn, and with k=1 there are random choices under which it is classified correctly, even if no other object has its label.",
  "all square matrices of float64 numbers, labels, lists of k, both kinds of metric, all random choices",
  "All matrices, lists of k and random choices.",
  ["hub_toolbox/knn_classification.py:score"])
p("C187", "The F measures in float64 are accurate and rank tables correctly; DEFECT: equal quality may look different",
  "For confusion counts with TP+FP+FN up to 2^53, the float64 F1 score differs from the exact 2TP/(2TP+FP+FN) by at most a relative error of 2^-49. For counts up to 2^40 it is exactly 1 for a table without errors (and at least one hit) and for no other. If 2TP+FP+FN is at most 2^24 for two tables and one has the larger exact F1, its float64 score is larger. DEFECT: two tables with the same exact F1 can get different float64 scores (e.g. TP=3, FN=2 against TP=3, FP=1, FN=1), so an equality test or a ranking by F1 may see a difference that is not there. The macro average over n tables has a relative error of at most 2(n+8)*2^-53, the weighted average of at most 2(n+9)*2^-53, in whatever order the sum is taken.",
  "all confusion counts up to the bounds named, all lists of tables, all orders of summation",
  "All counts up to 2^53 and all orders of summation.",
  ["hub_toolbox/knn_classification.py:f1_score", "hub_toolbox/knn_classification.py:f1_macro", "hub_toolbox/knn_classification.py:f1_weighted"])
p("C188", "predict treats every output on its own and follows renamed labels; DEFECT: its numbers depend on the other outputs",
  "predict with several outputs (target n x c, leave-one-out, k at least 1) elects for every object, k and output the same label as for this output alone or together with any other outputs, with the same random choices; and if the labels of an output are renamed (different labels stay different), the elected labels are renamed. No condition on the matrix: infinite and NaN distances are allowed. DEFECT: the numbers predict returns depend on the labels of the other outputs: adding an output with m distinct labels, all smaller than the others, adds m to every number returned.",
  "all square matrices of float64 numbers, targets with any number of outputs, lists of positive k, both kinds of metric, all random choices",
  "All matrices, targets, renamings and random choices; the numbers only make sense together with the labels of all outputs.",
  ["hub_toolbox/knn_classification.py:predict"])
p("C189", "DEFECT: test objects named by negative numbers stay in score's training set",
  "score evaluates a test_set_ind with negative numbers (-1 is the last object; a number outside -n..n-1 raises IndexError), but an object named by a negative number is not taken out of the training set: the candidates are the objects below the number of tested objects whose own non-negative number is not listed, and the nearest of them vote. Naming all objects by negative numbers, in any order, therefore gives exactly the accuracies, flags and confusion matrices of leave-one-out classification, whereas naming them by 0..n-1 makes every prediction the largest label. For non-negative numbers the behaviour is that of the other properties.",
  "all square matrices of float64 numbers, labels, lists of k, both kinds of metric, all test sets of possibly negative numbers, all random choices",
  "All matrices, test sets and random choices; tests use non-negative numbers.",
  ["hub_toolbox/knn_classification.py:score"])
p("C190", "r_precision in float64: error bounds for the values and both averages",
  "For a sparse similarity matrix whose diagonal comes first in every row, the value r_precision returns for an object is within one part in 2^53 of (hits / number of class mates), 0 when it has no class mates; objects with equal exact values get equal numbers, and objects with different exact values (at most 2^25 class mates) get numbers in the same order. For n objects the macro average is within 2(n+1)/2^53 (relative) of the exact mean of the exact values, and the weighted average within 2(n+2)/2^53 of (all hits / all class mates), for n up to 2^50 and any order of summation.",
  "all sparse float64 similarity matrices, labels with at least two objects sharing one, random choices, orders of summation",
  "All matrices, labels and orders of summation; tests compare with a tolerance chosen for one case.",
  ["hub_toolbox/knn_classification.py:r_precision", "hub_toolbox/knn_classification.py:_r_prec_worker"])
p("C191", "The Gini index and the hub share of the class Hubness in float64; DEFECT: equal hub shares may look different",
  "While the integer sums stay below 2^63, the Gini index is within 2^-50 (relative) of the exact index, in [0,1], below 1 for up to 2^50 objects, and 0 exactly if all occurrences are equal. The hub share (slots occupied by hubs, divided by k and then by the number of queries) is within 3/2^53 (relative) of the exact share, equal to 1 exactly if hubs occupy all slots and 0 exactly if they occupy none. Different shares of two fits (up to 2^25 slots) are reported in the right order; with equally many queries equal shares are reported as equal numbers, also for different k and hub sizes. DEFECT: with different numbers of queries equal shares may be reported as different numbers: an object that is among the 3 nearest neighbours of everyone, and is the only hub, has a smaller share for 6 queries than for 7.",
  "all occurrence vectors, inputs, metrics, k, hub sizes, batch sizes, numbers of jobs and permutations of float64 data",
  "All data sets; the differences are in the last bit and appear only for particular sizes.",
  ["hub_toolbox/hubness.py:Hubness._gini_index", "hub_toolbox/hubness.py:Hubness._hub_occurrence", "hub_toolbox/hubness.py:Hubness.fit_transform"])
p("C192", "A new object far away from everyone leaves the others as they were",
  "Add one object to a finite distance matrix such that everyone is farther from it than from anyone else. Then, if no row of the old matrix has ties and k is smaller than the old number of objects: hubness gives the old objects the same neighbours in the same order, the new object occurs in no neighbour list, and every old object occurs as often as before, plus once if it is one of the new object's own neighbours; shared_nearest_neighbors returns the same numbers for the old pairs. Ties allowed: local_scaling with exact arithmetic returns the same numbers for the old pairs. Empiric Mutual Proximity of a symmetric matrix does change: the new object counts as one more third object for every old pair, so 1-c/n becomes 1-(c+1)/(n+1); the order of the old pairs stays the same (up to 2^50 objects).",
  "all square distance matrices and all extensions by a remote object, all k, tie-breaking choices, worker schedules and partition algorithms",
  "Relates two runs on different matrices for all matrices and all extensions.",
  ["hub_toolbox/hubness.py:hubness", "hub_toolbox/local_scaling.py:local_scaling", "hub_toolbox/global_scaling.py:mutual_proximity_empiric", "hub_toolbox/shared_neighbors.py:shared_nearest_neighbors"])
p("C193", "Exact duplicates; DEFECT: for shared neighbours duplicates are never at distance 0, different objects may be",
  "Two objects with distance 0 and the same positive finite distances to all others: in hubness each is the first neighbour of the other. In empiric Mutual Proximity of a symmetric matrix their distance is 1-(n-2)/n, which is positive and the smallest distance any two objects have, and they have equal distances to every other object. In shared_nearest_neighbors their distance is positive, at least 1-(k-1)/k for all ties, and exactly that if the distances of the row differ. DEFECT: other objects can be at distance 0: with objects at 0, 11, 5 and 5 and k=2 the two duplicates get the distance 1/2, and the two objects that are farthest apart the distance 0.",
  "all square float64 distance matrices (up to 2^50 objects) with a pair of duplicates, all k, tie-breaking choices and partition algorithms",
  "All matrices and tie-breaking choices; tests use data in general position.",
  ["hub_toolbox/hubness.py:hubness", "hub_toolbox/global_scaling.py:mutual_proximity_empiric", "hub_toolbox/shared_neighbors.py:shared_nearest_neighbors"])
p("C194", "Separated classes get perfect results; Mutual Proximity keeps them separated; DEFECT: local scaling and NICDM do not",
  "Call the classes of a finite square matrix separated if everyone is closer to each member of the own class than to each member of other classes, and let every class have more than k members. Then, for distances and similarities and whatever the ties: all k neighbours in hubness belong to the own class; shared_nearest_neighbors gives objects of different classes exactly the distance 1 (similarity 0); score classifies every object correctly for all such k, with an accuracy within n/2^52 of 1. If all within-class values are closer than all between-class values, the Goodman-Kruskal index is exactly 1. Empiric Mutual Proximity of symmetric separated distances (up to 2^50 objects) is separated again, so everything above also holds after it. DEFECT: local scaling and NICDM can destroy separation: for objects at 0, 10, 11 and -12, -22 and k=1 (exact arithmetic) the nearest neighbour of the first object becomes the fourth, a member of the other class.",
  "all square float64 matrices, labels, k, tie-breaking choices, random permutations and sorting algorithms",
  "All separated data sets; tests use one data set.",
  ["hub_toolbox/hubness.py:hubness", "hub_toolbox/shared_neighbors.py:shared_nearest_neighbors", "hub_toolbox/knn_classification.py:score", "hub_toolbox/goodman_kruskal.py:goodman_kruskal_index", "hub_toolbox/global_scaling.py:mutual_proximity_empiric", "hub_toolbox/local_scaling.py:nicdm", "hub_toolbox/local_scaling.py:local_scaling"])
p("C195", "Moving two objects closer together; DEFECT: shared neighbours can then move them apart",
  "Lower the distance of one pair of objects in a distance matrix and keep everything else. Hubness: if one of the two is in the neighbour list of the other, it stays there (finite distances, no third object at exactly the new distance). Empiric Mutual Proximity (symmetric float64 matrices, up to 2^50 objects) and local scaling (symmetric, positive distances, exact arithmetic): the secondary distance of the pair does not grow, the secondary distance of no other pair shrinks, and pairs of two other objects keep their secondary distance exactly. DEFECT: shared_nearest_neighbors can take a pair from distance 0 to distance 1 when its distance is lowered.",
  "all square distance matrices, pairs, new distances, k, tie-breaking choices, worker schedules and partition algorithms",
  "Relates two runs on different matrices for all matrices and changes.",
  ["hub_toolbox/hubness.py:hubness", "hub_toolbox/global_scaling.py:mutual_proximity_empiric", "hub_toolbox/local_scaling.py:local_scaling", "hub_toolbox/shared_neighbors.py:shared_nearest_neighbors"])
p("C196", "An object that is nobody's neighbour can be left out",
  "Let a data set have one object that, for a given k, every other object finds farther than at least k of the rest. Running on the data with or without that object gives all other objects the same result: the same neighbour lists in hubness (which reports an occurrence count of 0 for it), the same shared_nearest_neighbors distances to the last bit, the same local scaling distances (exact arithmetic, ties allowed), and the same correct/incorrect outcome of score in leave-one-out classification, whatever the label of the object. For hubness, shared neighbours and classification the distances in a row must be finite and different from each other. The object need not be far away from everything.",
  "all square distance matrices with such an object in last place, all k, labels, random permutations, worker schedules, sorting and partition algorithms",
  "Relates two runs on data sets of different size for all data sets.",
  ["hub_toolbox/hubness.py:hubness", "hub_toolbox/shared_neighbors.py:shared_nearest_neighbors", "hub_toolbox/local_scaling.py:local_scaling", "hub_toolbox/knn_classification.py:score"])
p("C197", "A larger neighbourhood size extends the smaller one",
  "For k <= k' < n on the same square matrix. Hubness (finite values, no ties, distances or similarities): the k-neighbour list of every object is the beginning of its k'-neighbour list, so that no occurrence count decreases and an antihub for k' is one for k. shared_nearest_neighbors (same conditions): two objects that have the value for no common neighbour (1 for distances, 0 for similarities) with k' have it with k. Local scaling (positive distances, ties allowed, exact arithmetic): no secondary distance grows with k.",
  "all square matrices, all pairs k <= k' < n, tie-breaking permutations, worker schedules, partition algorithms (possibly different in the two runs)",
  "Relates two runs with different k for all matrices.",
  ["hub_toolbox/hubness.py:hubness", "hub_toolbox/shared_neighbors.py:shared_nearest_neighbors", "hub_toolbox/local_scaling.py:local_scaling"])
p("C198", "An isolated group of objects is processed as if it were alone",
  "Let some objects of a data set be nearer to each other than to everyone else, and let there be more than k of them. Then every member of the group gets, from a run on the whole data set, what it gets from a run on the group alone: in hubness the same k neighbours in the same order, from shared_nearest_neighbors bit for bit the same values within the group, from local scaling the same secondary distances within the group (exact arithmetic, ties allowed), and in k-nearest-neighbour classification (score) the same verdict, right or wrong, for every k smaller than the group. Hubness, shared neighbours and classification: distances or similarities, finite, and no ties within the rows of the group; the rest of the data is arbitrary.",
  "all square matrices, groups at any positions, k, tie-breaking permutations, worker schedules and partition algorithms (possibly different in the two runs)",
  "Relates runs on data sets of different sizes for all data sets and groups.",
  ["hub_toolbox/hubness.py:hubness", "hub_toolbox/shared_neighbors.py:shared_nearest_neighbors", "hub_toolbox/local_scaling.py:local_scaling", "hub_toolbox/knn_classification.py:score"])
p("C199", "Index conventions of Mutual Proximity to a sample",
  "In Mutual Proximity to a sample (mutual_proximity_empiric with sample_ind, mutual_proximity_gaussi_sample, mutual_proximity_gaussi with idx) the sampled objects, and in the first two the held-out objects (test_set_ind), may be numbered from the end: with n objects, every number from -n to n-1 is accepted and the result is bit for bit the one for the same objects numbered from 0. Any number outside that range, in either argument, raises IndexError and yields no result (for arguments whose shapes and metric pass the input checks). A sparse matrix raises TypeError in the empirical version whatever the other arguments are: the checks for it further down in the function are never reached.",
  "all rectangular float64 matrices, index lists of any length over all integers, both metrics, with and without held-out objects",
  "The integers are unbounded and every loop of the two functions indexes with them; tests use a few valid positions.",
  ["hub_toolbox/global_scaling.py:_mutual_proximity_empiric_sample", "hub_toolbox/global_scaling.py:mutual_proximity_gaussi_sample", "hub_toolbox/global_scaling.py:mutual_proximity_gaussi", "hub_toolbox/io.py:check_sample_shape_fits"])
p("C200", "Index conventions of local scaling, NICDM and shared neighbours to a sample",
  "In local_scaling_sample, nicdm_sample and snn_sample (n_jobs = 1) the sampled objects (train_ind) and the held-out objects (test_ind) may be numbered from the end: with n objects, every number from -n to n-1 is accepted and the result is bit for bit the one for the same objects numbered from 0. A number outside that range in train_ind raises IndexError whatever k is. One in test_ind never yields a result, and raises IndexError in every call that would succeed without test_ind (for snn_sample: in every call whose shapes and metric pass the input checks).",
  "all rectangular float64 matrices, index lists of any length over all integers, k, metrics, partition and sorting algorithms, with and without held-out objects",
  "The integers are unbounded and every loop indexes with them; tests use a few valid positions.",
  ["hub_toolbox/local_scaling.py:local_scaling_sample", "hub_toolbox/local_scaling.py:nicdm_sample", "hub_toolbox/shared_neighbors.py:snn_sample"])
p("C201", "When the R-precision of an object is 1, and when it is 0",
  "For a sparse similarity matrix in which every object is most similar to itself, and an object i with at least one mate (another object with its label). If the similarities of i to all its mates are stored and exceed every stored similarity of i to an object with another label, r_precision reports exactly 1.0 for i. Conversely 1.0 is only reported if all mates are stored and no stored stranger is strictly more similar than a mate. If no mate is stored, or as many stored strangers as i has mates are all strictly more similar than every stored mate, exactly 0.0 is reported. Conversely 0.0 is only reported if no mate is stored, or that many strangers are at least as similar as every stored mate.",
  "all sparse similarity matrices without NaN and stored zeros, label vectors of up to 2^50 labels, tie-breaking, random permutations, argpartition results",
  "Infinitely many matrices and all random draws; the converse directions rule out values that rounding could produce.",
  ["hub_toolbox/knn_classification.py:r_precision"])
p("C202", "Timing records of the approximate method",
  "After any history of fit, transform and predict calls on one object, failed calls included, time_fit_, time_transform_ and time_predict_ describe the last call that finished that step and are missing if none did. A transform whose final conversion fails, and a predict that fails after its transform, still update time_transform_; a failed predict leaves time_predict_ as it was. Timing never raises: a call fails exactly with the error of its own work. If the clocks did not run backwards between the two readings, no entry is NaN or negative, the total is at least each of its four parts, the speedup is total / elapsed, and 0 if no time elapsed. The record of predict is made from readings taken after its transform has ended.",
  "all histories of calls, all failure points, all clock readings (non-negative finite float64, not decreasing for the claims about values)",
  "Histories and clock readings are unbounded; a test cannot choose what the clocks return.",
  ["hub_toolbox/approximate.py:SuQHR._times", "hub_toolbox/approximate.py:SuQHR.fit", "hub_toolbox/approximate.py:SuQHR.transform", "hub_toolbox/approximate.py:SuQHR.predict"])
p("C203", "Occurrence counts when the data set falls apart into isolated groups",
  "If a group of more than k objects is isolated in a data set (each member is nearer to every other member than to any object outside the group), its members have no tied distances, and every object outside it belongs to some other isolated group of more than k objects, then hubness on the whole data set reports for each member exactly the k-occurrence that hubness on the group alone reports. Even if members are tied, the k-occurrences of the members add up to k times the size of the group: a hub never draws its occurrences from another group. This holds for any positions of the members that keep their order, dense or sparse input, and any random tie-breaking. Without the condition on the outside objects only the neighbour lists are preserved (C198), since isolated members can still be neighbours of outsiders.",
  "all finite distance or similarity matrices, all such groupings, all k smaller than every group, all random permutations and argpartition results",
  "The sum ranges over all objects of data sets of every size and all placements of the group; tests try a few.",
  ["hub_toolbox/hubness.py:hubness"])
p("C204", "Predictions of the approximate method with weights given as a function",
  "If knn__weights is a function that maps each distance d to a finite real weight h(d), possibly zero or negative, predict chooses for each query and output the label with the largest total weight among the voters (the smallest label if several have it), provided that total is positive. If no label has a positive total, it silently predicts the smallest label of all candidates, even if none of the voters carries it. The voters are the nearest candidates, as many as with the built-in weightings, and h sees the distances after the non-finite ones were replaced and all were shifted to be non-negative. An error of the function is the error of predict. A constant positive function gives exactly the predictions of uniform weights. Multiplying the function by a positive constant changes no prediction. If all distances are finite and positive, the function 1/d gives the predictions of the built-in weighting 'distance'.",
  "all distance matrices with non-finite entries, label vectors, numbers of outputs, weight functions with any sign, argpartition and argsort results",
  "The function is chosen by the caller; tests can try only a few functions and matrices.",
  ["hub_toolbox/approximate.py:SuQHR._predict_knn", "hub_toolbox/approximate.py:SuQHR.predict"])

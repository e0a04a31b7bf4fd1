{"id": "C01", "title": "k-occurrences are conserved", "statement": "hubness(D, k, metric) on an n x m matrix returns an occurrence vector N_k with exactly m entries, each between 0 and n, whose sum is n*min(k, m-1): every query contributes exactly that many neighbour slots, none lost or invented.", "quantifier": "all matrices of float64 (NaN and infinities included) of every size n x m, every k >= 1, both metrics, every random shuffle and every argpartition result NumPy's contract allows", "why_tests_cant": "The claim ranges over all matrix contents and over the tie-breaking freedom of argpartition and of the random permutations; tests see one matrix, one NumPy build and one seed.", "anchors": ["hub_toolbox/hubness.py:hubness", "hub_toolbox/hubness.py:_hubness_no_multiprocessing", "hub_toolbox/hubness.py:_hubness_nearest_neighbors"]}
{"id": "C02", "title": "reported neighbours are k nearest neighbours, nearest first", "statement": "For a square matrix, row i of the neighbour array returned by hubness holds min(k, m-1) distinct indices; the values along the row are in nearest-first order; and no point left out is strictly nearer than a listed one (after the documented replacement of self and non-finite values by the worst value). For similarities 'nearer' means larger.", "quantifier": "all square float64 matrices, all k, both metrics, all shuffles, every argpartition that meets NumPy's contract", "why_tests_cant": "Correct selection must hold for every value pattern including ties, infinities and NaN and every admissible partition result.", "anchors": ["hub_toolbox/hubness.py:hubness", "hub_toolbox/hubness.py:_hubness_nearest_neighbors"]}
{"id": "C03", "title": "a point is never its own neighbour", "statement": "If row i of a square matrix has at least min(k, m-1) finite off-diagonal entries then i does not occur among the neighbours hubness reports for i; moreover no non-finite entry is reported while a finite one is available.", "quantifier": "all square float64 matrices, any diagonal, all k, both metrics, all shuffles and partitions", "why_tests_cant": "A counterexample could hide in any value pattern on the diagonal (0, NaN, inf) or any tie order.", "anchors": ["hub_toolbox/hubness.py:hubness", "hub_toolbox/hubness.py:_hubness_no_multiprocessing"]}
{"id": "C04", "title": "hubness with worker processes equals serial hubness under every schedule", "statement": "For square matrices, and for distances of any shape, the neighbour array produced with n_jobs > 1 (rows handed to workers that write into one shared buffer) equals the serial result, whatever the interleaving of the workers' writes.", "quantifier": "all matrices, k, worker counts and all interleavings of the writes of all row tasks", "why_tests_cant": "A test observes one schedule per run; the claim is about every interleaving.", "anchors": ["hub_toolbox/hubness.py:hubness", "hub_toolbox/hubness.py:_load_shared_data", "hub_toolbox/hubness.py:_hubness_nearest_neighbors"]}
{"id": "C05", "title": "DEFECT: serial hubness of rectangular similarities is not top-k", "statement": "With n_jobs=1 and metric='similarity' the partition positions are computed from the number of rows n instead of the number of columns m. For every n > m (m >= 2, k >= 1) the call raises ValueError; for n < m there are matrices for which the returned neighbours are not the most similar ones and differ from the n_jobs=2 result. For distances and for square matrices serial and parallel code select the same ranks.", "quantifier": "all n, m with n > m for the exception; a witness for n < m; all square matrices for the agreement", "why_tests_cant": "Existing tests only use square matrices; the claim separates all shapes into those that work and those that fail.", "anchors": ["hub_toolbox/hubness.py:_hubness_no_multiprocessing", "hub_toolbox/hubness.py:hubness"]}
{"id": "C06", "title": "random tie breaking only matters for ties", "statement": "If the finite values of each row without the self distance are pairwise different and at least min(k, m-1) of them exist, the neighbour array and N_k returned by hubness do not depend on the random permutations nor on which contract-abiding argpartition is used, so shuffle_equal and random_state have no effect.", "quantifier": "all square matrices without ties in a row, all pairs of shuffles, all pairs of partition implementations", "why_tests_cant": "Independence of an unobservable choice (RNG, introselect internals) is a relation between two executions for all inputs.", "anchors": ["hub_toolbox/hubness.py:hubness"]}
{"id": "C07", "title": "MP (distance) computes its documented formula, symmetric, zero self distance", "statement": "mutual_proximity_empiric(D, 'distance') returns an n x n matrix with M[i,j] = 1 - #{x : D[i,x] > D[j,i] and D[j,x] > D[j,i], x different from i and j}/n for i<j, M[j,i] bit-identical to M[i,j], and M[i,i] = 0.", "quantifier": "all square float64 matrices of every size up to 2^53 (any diagonal, NaN and infinities included)", "why_tests_cant": "The count formula must hold for every size and every value pattern; in-place accumulation and mirroring bugs show up only at particular sizes or values.", "anchors": ["hub_toolbox/global_scaling.py:_mutual_proximity_empiric_full", "hub_toolbox/global_scaling.py:mutual_proximity_empiric"]}
{"id": "C08", "title": "MP values lie in [0,1]", "statement": "All values returned by dense empiric MP are in [0,1] in float64 arithmetic (rounding included), for distances and for similarities; off the diagonal distances are strictly positive and similarities (for finite inputs) strictly below 1, so no point becomes indistinguishable from another one by rescaling.", "quantifier": "all square float64 matrices of size up to 2^53, both metrics", "why_tests_cant": "Range under rounding for all sizes is a statement about every division n can produce.", "anchors": ["hub_toolbox/global_scaling.py:_mutual_proximity_empiric_full"]}
{"id": "C09", "title": "MP depends only on the order of the input values", "statement": "Applying any function to the matrix entries that preserves and reflects the order < on them (e.g. a strictly increasing rescaling) leaves the empiric MP matrix bit-for-bit unchanged, for distances and for similarities below infinity.", "quantifier": "all pairs of order-equivalent float64 matrices", "why_tests_cant": "Relates two runs on arbitrary pairs of inputs.", "anchors": ["hub_toolbox/global_scaling.py:_mutual_proximity_empiric_full"]}
{"id": "C10", "title": "MP of distances and of similarities are complementary exactly when there are no ties", "statement": "If S reverses the order of D and each off-diagonal value occurs in no other off-diagonal position of its row or of the row it is compared against, then #-counts agree so that MP_sim(S) = 1 - MP_dist(D) off the diagonal; with ties the two differ (strict > for distances versus <= for similarities) and a concrete matrix shows it.", "quantifier": "all order-reversing pairs without ties; one witness with ties", "why_tests_cant": "The unit test checks one random matrix without ties; the claim is for all and delimits where it breaks.", "anchors": ["hub_toolbox/global_scaling.py:_mutual_proximity_empiric_full"]}
{"id": "C11", "title": "sample MP with the whole population as sample equals full MP", "statement": "mutual_proximity_empiric(D, sample_ind=arange(n)) returns the same matrix as mutual_proximity_empiric(D) for every symmetric D; for any sample, entry (i,j) is 1 - #{x: D[i,x] > D[i,j] and D[idx_j,x] > D[i,j]}/s with self entries excluded, and the entry comparing a point with itself is exactly the self value.", "quantifier": "all symmetric float64 matrices; all sample index vectors", "why_tests_cant": "Agreement of two separately coded algorithms on all inputs.", "anchors": ["hub_toolbox/global_scaling.py:_mutual_proximity_empiric_sample", "hub_toolbox/global_scaling.py:_mutual_proximity_empiric_full"]}
{"id": "C12", "title": "sparse MP agrees with dense MP when self similarities dominate", "statement": "For a symmetric similarity matrix with non-negative values whose self similarities exceed every other value of their row, and with all rows above the min_nnz threshold, sparse empiric MP stores at every stored non-zero position the value dense empiric similarity MP has there, and stores nothing elsewhere: equal in exact arithmetic, within 2^-51 in float64 (the sparse code computes 1-(n-c)/n, the dense code c/n, and a 3x3 matrix shows they are not bit-identical). The result does not depend on the worker schedule. If an off-diagonal similarity equals the self similarity the two can be as far apart as 0 and 1 (witness).", "quantifier": "all sparse symmetric matrices with such values, all sizes up to 2^53, all worker schedules", "why_tests_cant": "Two different counting algorithms (dense mask versus sparse row arithmetic) agree on all inputs.", "anchors": ["hub_toolbox/global_scaling.py:_mutual_proximity_empiric_sparse", "hub_toolbox/global_scaling.py:_mutual_proximity_empiric_sample"]}
{"id": "C13", "title": "DEFECT: integer test indices are silently ignored by MP", "statement": "mutual_proximity_empiric(D, test_ind=a) with an integer index array that does not contain -1 returns exactly the result of the call without test_ind (nothing is held out and no error is raised); a boolean mask with at least one True raises NotImplementedError, and an all-False mask is accepted.", "quantifier": "all matrices and all integer index arrays / boolean masks", "why_tests_cant": "Universal over index arrays; a test would have to guess the failing representation.", "anchors": ["hub_toolbox/global_scaling.py:_mutual_proximity_empiric_full"]}
{"id": "C14", "title": "SNN computes 1 - overlap/k, symmetric, self value exact, range [0,1]", "statement": "shared_nearest_neighbors(D,k,'distance') returns for i != j the value 1 - |N(i) & N(j)|/k where N(x) is a set of exactly k nearest points of x; the matrix is symmetric bit-for-bit, has 0 on the diagonal, and every value is in [0,1]. For 'similarity' it is |N(i) & N(j)|/k with 1 on the diagonal.", "quantifier": "all square float64 matrices, every 0 < k < n, both metrics, every contract-abiding argpartition", "why_tests_cant": "Holds for all values and tie-breakings.", "anchors": ["hub_toolbox/shared_neighbors.py:shared_nearest_neighbors", "hub_toolbox/shared_neighbors.py:_snn_my_hood", "hub_toolbox/shared_neighbors.py:_snn_our_hood"]}
{"id": "C15", "title": "parallel SNN equals serial SNN under every schedule", "statement": "The two parallel phases (k-NN sets, then secondary distances) write every cell of the shared buffers exactly with the value the serial code produces, for every interleaving of the workers.", "quantifier": "all inputs and all interleavings", "why_tests_cant": "Quantifies over schedules.", "anchors": ["hub_toolbox/shared_neighbors.py:shared_nearest_neighbors"]}
{"id": "C16", "title": "DEFECT: sample variants put the self distance in the wrong cell", "statement": "snn_sample, local_scaling_sample and nicdm_sample called with train_ind and without test_ind write the self value on the geometric diagonal (j,j) instead of the cells (train_ind[j], j): cell (j,j) holds the self value for every j < s, even when train_ind[j] != j, and a true self cell outside the diagonal gets the ordinary secondary value instead of the self value (for SNN that value happens to be right, for local scaling and NICDM it is computed from the self distance entry). When train_ind = arange(s) the result is correct.", "quantifier": "all matrices and all training index vectors", "why_tests_cant": "Existing tests use train_ind = arange(s) only.", "anchors": ["hub_toolbox/shared_neighbors.py:snn_sample", "hub_toolbox/local_scaling.py:local_scaling_sample", "hub_toolbox/local_scaling.py:nicdm_sample"]}
{"id": "C17", "title": "fast Goodman-Kruskal index equals the definition", "statement": "goodman_kruskal_index(D, classes, metric) equals (Qc-Qd)/(Qc+Qd) computed from all quadruples (concordant minus discordant pairs of a within-class and a between-class distance, ties dropped), i.e. the same value as the naive quadruple loop, for every symmetric matrix without NaN, and is 0 when there is no comparable pair.", "quantifier": "all symmetric float64 matrices of any size with at most 2^53 comparable quadruples, all label vectors", "why_tests_cant": "An O(n^2 log n) counting algorithm against its O(n^4) definition on all inputs including ties.", "anchors": ["hub_toolbox/goodman_kruskal.py:goodman_kruskal_index", "hub_toolbox/goodman_kruskal.py:_naive_goodman_kruskal"]}
{"id": "C18", "title": "Goodman-Kruskal index is in [-1,1], antisymmetric in the metric, and order invariant", "statement": "The index lies in [-1,1]; switching metric between 'distance' and 'similarity' on the same matrix negates it; it is unchanged by any strictly increasing transformation of the matrix and by any injective renaming of the classes.", "quantifier": "all symmetric float64 matrices with at most 2^53 comparable quadruples and label vectors, all order-preserving transformations, all injective relabelings", "why_tests_cant": "Relational and universal.", "anchors": ["hub_toolbox/goodman_kruskal.py:goodman_kruskal_index"]}
{"id": "C19", "title": "sparse Goodman-Kruskal equals dense for non-negative similarities, and not otherwise", "statement": "For symmetric similarity matrices with non-negative entries the sparse index (zeros counted as similarity 0) equals the dense similarity index; for negative entries it does not (witness).", "quantifier": "all non-negative symmetric float64 matrices with at most 2^53 comparable quadruples and label vectors; a witness with a negative value", "why_tests_cant": "Equivalence of two implementations over all sparsity patterns.", "anchors": ["hub_toolbox/goodman_kruskal.py:sparse_goodman_kruskal_index", "hub_toolbox/goodman_kruskal.py:goodman_kruskal_index"]}
{"id": "C20", "title": "accuracy, correctness flags and confusion matrix of score() describe the same predictions", "statement": "For each k: the confusion matrix entries sum to the number of evaluated points, its row sums are the class counts of the evaluated points, the number of True correctness flags equals its trace, and the accuracy is the float64 accumulation of 1/n that many times.", "quantifier": "all square matrices, labels, lists of k, both metrics, all random permutations and argsort results", "why_tests_cant": "Universal over inputs and nondeterminism.", "anchors": ["hub_toolbox/knn_classification.py:score"]}
{"id": "C21", "title": "DEFECT: accuracy can exceed 1 through accumulated rounding", "statement": "The reported accuracy is built by adding 1/n once per correct point. For 9 points that are all classified correctly the reported float64 accuracy is strictly greater than 1; in exact arithmetic it would be exactly (number correct)/n, which is at most 1.", "quantifier": "a witness in float64; all inputs for the exact-arithmetic bound", "why_tests_cant": "Only particular n trigger it and tests compare with a tolerance.", "anchors": ["hub_toolbox/knn_classification.py:score"]}
{"id": "C22", "title": "no label leakage in leave-one-out classification", "statement": "If every k-neighbourhood considered for point i contains a finite value, then the class predicted for i does not depend on the label of i: changing only the label of i (keeping the set of classes) leaves its prediction unchanged.", "quantifier": "all matrices, all labelings differing only at i, all permutations and argsort results", "why_tests_cant": "Non-interference over pairs of runs.", "anchors": ["hub_toolbox/knn_classification.py:score"]}
{"id": "C23", "title": "a strict majority among the k nearest finite neighbours wins; ties follow the single nearest neighbour", "statement": "The predicted class is the unique most frequent class among the finite k nearest neighbours if there is a unique one; otherwise it is the class of the first neighbour. DEFECT: in the tied case the winner need not be one of the tied classes (witness with neighbour classes A,B,B,C,C giving A).", "quantifier": "all neighbour class sequences", "why_tests_cant": "Universal over vote patterns.", "anchors": ["hub_toolbox/knn_classification.py:score", "hub_toolbox/knn_classification.py:predict"]}
{"id": "C24", "title": "DEFECT: score(test_set_ind=...) trains on the wrong points", "statement": "With an integer test_set_ind of size t, only points with index below t (and not in the test set) can vote, whatever the size of D. In particular with test_set_ind = [0..t-1] nobody votes and every test point gets the last class, even if D and labels make the problem trivially separable.", "quantifier": "all matrices, labels and test index sets", "why_tests_cant": "The effective training set is characterised for all inputs.", "anchors": ["hub_toolbox/knn_classification.py:score"]}
{"id": "C25", "title": "F-measures are consistent with confusion counts", "statement": "f1_score(cmat) is 0 if TP=0 and otherwise 2TP/(2TP+FP+FN); it is always in [0,1]; micro F1 of a partition of counts is the F1 of the summed table; macro and weighted F1 are averages of F1 values and lie in [0,1].", "quantifier": "all 2x2 count tables and all non-empty stacks of them", "why_tests_cant": "Universal over tables.", "anchors": ["hub_toolbox/knn_classification.py:f1_score", "hub_toolbox/knn_classification.py:f1_macro", "hub_toolbox/knn_classification.py:f1_micro", "hub_toolbox/knn_classification.py:f1_weighted"]}
{"id": "C26", "title": "DEFECT: predict with a test index always fails", "statement": "predict(D, target, test_ind=anything but None) raises UnboundLocalError for every otherwise valid input; predict without test_ind never does.", "quantifier": "all inputs", "why_tests_cant": "Universal over inputs.", "anchors": ["hub_toolbox/knn_classification.py:predict"]}
{"id": "C27", "title": "local scaling computes its formula on the k-th nearest neighbour radius", "statement": "local_scaling(D,k) gives L[i,j] = 1 - exp(-D[i,j]^2/(r_i r_j)) for i<j with r_i the k-th smallest entry of row i without the self entry; L is symmetric, has 0 on the diagonal and, if all radii are positive, every entry is in [0,1).", "quantifier": "all square matrices with finite non-negative off-diagonal entries, every 1 <= k < n, every contract-abiding partition", "why_tests_cant": "All inputs and all partitions.", "anchors": ["hub_toolbox/local_scaling.py:local_scaling", "hub_toolbox/local_scaling.py:_ls_calculate_r", "hub_toolbox/local_scaling.py:_ls_calculate_sec_dist"]}
{"id": "C28", "title": "local scaling is scale free, NICDM scales linearly", "statement": "Multiplying all distances by c > 0 leaves the local scaling result unchanged and multiplies the NICDM result by c.", "quantifier": "all matrices with positive radii, all c > 0", "why_tests_cant": "Relates pairs of runs for all c.", "anchors": ["hub_toolbox/local_scaling.py:local_scaling", "hub_toolbox/local_scaling.py:nicdm"]}
{"id": "C29", "title": "parallel local scaling equals serial local scaling under every schedule", "statement": "With n_jobs > 1 the workers write row and column slices of one shared matrix; the final matrix equals the serial result for every interleaving.", "quantifier": "all inputs, all interleavings of all writes", "why_tests_cant": "Quantifies over schedules.", "anchors": ["hub_toolbox/local_scaling.py:local_scaling", "hub_toolbox/local_scaling.py:nicdm"]}
{"id": "C30", "title": "DEFECT: local scaling of similarities reverses their order", "statement": "With metric='similarity' and fixed positive radii, of two non-negative similarities the larger one gets the smaller local scaling similarity.", "quantifier": "all non-negative similarities and radii", "why_tests_cant": "The unit test passes because its similarities are all negative; universal statement shows the direction.", "anchors": ["hub_toolbox/local_scaling.py:local_scaling"]}
{"id": "C31", "title": "DEFECT: duplicate points make local scaling undefined", "statement": "If two points coincide (distance 0) and both have a zero k-th neighbour radius, or one has a zero radius and the other a finite one, the local scaling distance between them is NaN instead of 0.", "quantifier": "all matrices with such a pair", "why_tests_cant": "Arises only for inputs with duplicates.", "anchors": ["hub_toolbox/local_scaling.py:local_scaling"]}
{"id": "C32", "title": "NICDM is symmetric, non-negative and zero on the diagonal", "statement": "nicdm(D,k) gives N[i,j] = g * D[i,j]/sqrt(r_i r_j) for i<j with r_i the mean of the k smallest other entries of row i and g the geometric mean of all radii; N is symmetric with zero diagonal and non-negative.", "quantifier": "all square matrices with positive radii, every 1 <= k < n, every contract-abiding partition", "why_tests_cant": "All inputs and partitions.", "anchors": ["hub_toolbox/local_scaling.py:nicdm"]}
{"id": "C33", "title": "centering removes the mean, and kernel centering equals vector centering", "statement": "centering(X,'vector') has column means zero, is idempotent and invariant under translating all points; centering of the Gram matrix ('kernel') equals the Gram matrix of the centred vectors.", "quantifier": "all real data matrices of every shape with at least one row", "why_tests_cant": "Algebraic identities over all matrices.", "anchors": ["hub_toolbox/centering.py:centering"]}
{"id": "C34", "title": "weighted centering: gamma = 0 is plain centering; DEFECT: held-out rows still contribute", "statement": "weighted_centering with gamma=0 and no test mask equals centering; with metric 'euclidean' every gamma gives plain centering (unless all training rows are zero); with a test mask the subtracted mean still depends on the held-out rows (witness), contrary to the documentation.", "quantifier": "all data matrices; all gamma for the euclidean case", "why_tests_cant": "Universal algebraic identity plus a witness.", "anchors": ["hub_toolbox/centering.py:weighted_centering"]}
{"id": "C35", "title": "global DisSim equals -2<x-c, y-c>", "statement": "dis_sim_global(X,Y) returns -2 times the inner product of the mean-centred vectors, is invariant under translating all points, and raises ValueError on differing dimension.", "quantifier": "all real matrices", "why_tests_cant": "Algebraic identity on all inputs.", "anchors": ["hub_toolbox/centering.py:dis_sim_global"]}
{"id": "C36", "title": "localized centering with kappa = n ranks like standard centering", "statement": "With kappa = n and gamma = 1 the localized centering similarities differ, within each row, from the cosine similarities by the affinity to the centroid, so differences inside a row equal those of the centred inner products.", "quantifier": "all data matrices with non-zero rows", "why_tests_cant": "Algebraic identity on all inputs.", "anchors": ["hub_toolbox/centering.py:localized_centering"]}
{"id": "C37", "title": "cosine distance is a proper dissimilarity matrix", "statement": "cosine_distance(X) is symmetric, zero on the diagonal, within [0,2], and unchanged when rows are multiplied by positive factors, for every X without zero rows.", "quantifier": "all real matrices without zero rows, all positive factors", "why_tests_cant": "Cauchy-Schwarz for all vectors.", "anchors": ["hub_toolbox/distances.py:cosine_distance"]}
{"id": "C38", "title": "the synchronised progress counter never loses or duplicates a value", "statement": "In every interleaving of the lock, read, write and unlock steps of any number of processes, with process deaths at any point, the returned values are those of performing the finished calls one after the other; values returned by increments are pairwise distinct while the counter moves by less than 2^32; when all calls have returned the counter holds the initial value plus all increments; unless a process dies inside a call the remaining calls can always finish, and if one does, no later call returns.", "quantifier": "all numbers of processes, programs of calls, interleavings and crash points", "why_tests_cant": "Requires reasoning about all schedules and crash points.", "anchors": ["hub_toolbox/utils.py:SynchronizedCounter"]}
{"id": "C39", "title": "shape and parameter checks accept exactly the documented inputs", "statement": "The io check functions raise (the documented exception type) exactly when the shapes violate the documented relation, for arrays of any dimension and for non-arrays.", "quantifier": "all shapes (any number of dimensions), all metric strings", "why_tests_cant": "Universal over shapes and strings.", "anchors": ["hub_toolbox/io.py:check_is_nD_array", "hub_toolbox/io.py:check_distance_matrix_shape", "hub_toolbox/io.py:check_sample_shape_fits", "hub_toolbox/io.py:check_valid_metric_parameter"]}
{"id": "C40", "title": "sparse matrix save/load round trip; DEFECT: it fails for file names without .npz", "statement": "For a file name ending in .npz, load_csr_matrix(save_csr_matrix(f, M)) has the same shape, row pointers and dense contents as M (and the same data and indices if M has no unused storage). For every other name the data are written to f.npz while f is returned, so loading raises FileNotFoundError or returns what was stored under f before.", "quantifier": "all well-formed CSR matrices, all file names and file system contents", "why_tests_cant": "Universal over matrices and names; the only unit test uses a .npz suffix.", "anchors": ["hub_toolbox/io.py:save_csr_matrix", "hub_toolbox/io.py:load_csr_matrix"]}
{"id": "C41", "title": "HubnessAnalysis accumulates experiments in call order", "statement": "A sequence of analyze_hubness calls leaves self.experiments equal to the concatenation, in order, of one experiment per comma separated name of each call; a name that is not supported raises ValueError and leaves exactly the experiments before it; stored inputs are never modified.", "quantifier": "all call histories with all name lists", "why_tests_cant": "Quantifies over call histories.", "anchors": ["hub_toolbox/hubness_analysis.py:HubnessAnalysis", "hub_toolbox/hubness_analysis.py:HubnessExperiment"]}
{"id": "C42", "title": "the three Gini index algorithms agree and stay in [0,1)", "statement": "Hubness._gini_index gives the same value for every string passed as limiting ('memory', 'cpu' and the naive fallback): the sum of |x-y| over all ordered pairs divided by 2*n*sum. For non-negative occurrences with positive sum (2*n*sum at most 2^53 for the claims about the float) the exact value is in [0, 1-1/n], the float is below 1, and it is 0 exactly if all occurrences are equal.", "quantifier": "all occurrence vectors of every length", "why_tests_cant": "Equality of a quadratic and two vectorised formulas on all inputs.", "anchors": ["hub_toolbox/hubness.py:Hubness._gini_index"]}
{"id": "C43", "title": "hubness measures of the Hubness estimator are in range", "statement": "After fit_transform the neighbour lists hold k distinct training points per query, the k-occurrence counts them and sums to n_test*k; antihubs_ are exactly the points without occurrences, hubs_ exactly those with at least hub_size*k occurrences; antihub_occurrence_, hub_occurrence_ and groupie_ratio_ are the rounded fractions they are named after and lie in [0,1]; the Robin-Hood index lies in [0,1-1/n] and is 0 only for equal occurrences, the Atkinson index lies in [0,1).", "quantifier": "all inputs (vectors, dense or sparse distances), k, hub sizes, batch sizes, worker counts and schedules", "why_tests_cant": "Universal over vectors.", "anchors": ["hub_toolbox/hubness.py:Hubness"]}
{"id": "C44", "title": "Hubness estimator rejects exactly the invalid constructor parameters", "statement": "The constructor raises ValueError if and only if k < 1, hub_size <= 0, the metric is not euclidean, cosine or precomputed, a return flag is not a bool, n_jobs is 0 or below -1, verbose < 0, or random_state is not a valid seed; otherwise it stores n_jobs, with -1 replaced by the number of CPUs.", "quantifier": "all parameter combinations", "why_tests_cant": "Universal over parameter space.", "anchors": ["hub_toolbox/hubness.py:Hubness.__init__"]}
{"id": "C45", "title": "k-nearest-neighbour search of the Hubness estimator is independent of batching", "statement": "For every batch size >= 1, every number of worker processes and every schedule, fit_transform on vectors ends with the same result (value or exception); with training vectors Y it lists the k nearest of them for each query. Batch size 0 raises ZeroDivisionError.", "quantifier": "all vectors, batch sizes, worker counts and interleavings", "why_tests_cant": "Universal over batch sizes, including those not dividing the row count.", "anchors": ["hub_toolbox/hubness.py:Hubness._k_neighbors"]}
{"id": "C46", "title": "DEFECT: dropping the first neighbour drops the wrong point when there are duplicates", "statement": "With has_self_distances=True (and in hubness_from_vectors without Y) the first of k+1 neighbours is dropped as 'self'. If self is strictly nearest the result is the k nearest others; if a duplicate exists there is a contract-abiding partition for which self stays among its own neighbours.", "quantifier": "all matrices for the positive part; a witness for the defect", "why_tests_cant": "Depends on tie-breaking inside argpartition.", "anchors": ["hub_toolbox/hubness.py:Hubness._k_neighbors_precomputed", "hub_toolbox/hubness.py:hubness_from_vectors"]}
{"id": "C64", "title": "DEFECT: Hubness accepts metric='cosine' and then always fails", "statement": "The constructor accepts metric='cosine' but fit_transform on any non-empty vectors raises TypeError, because the keyword arguments meant for euclidean distances are passed to the cosine routine.", "quantifier": "all vectors, batch sizes, worker counts and schedules", "why_tests_cant": "Failure on all inputs.", "anchors": ["hub_toolbox/hubness.py:Hubness.__init__", "hub_toolbox/hubness.py:Hubness._k_neighbors", "hub_toolbox/hubness.py:_k_neighbors_parallel"]}
{"id": "C65", "title": "DEFECT: a negative batch size silently makes object 0 everybody's neighbour", "statement": "With batch_size < 0 fit_transform computes no distance at all, raises nothing, returns neighbour lists that contain only object 0 and the occurrence vector (n*k, 0, ..., 0).", "quantifier": "all vectors, negative batch sizes, worker counts", "why_tests_cant": "Silent corruption on all inputs.", "anchors": ["hub_toolbox/hubness.py:Hubness._k_neighbors"]}
{"id": "C66", "title": "sparse precomputed distances: the k nearest stored entries, self entries included", "statement": "On a csr distance matrix fit_transform returns for each row the columns of the k smallest stored entries, nearest first, whether or not all rows have the same number of entries; no rows raises IndexError and a row with fewer than k stored entries raises ValueError. has_self_distances has no effect, so a stored self distance makes a point its own neighbour.", "quantifier": "all csr matrices, k and permutations", "why_tests_cant": "Two code paths must agree on all matrices.", "anchors": ["hub_toolbox/hubness.py:Hubness._k_neighbors_precomputed_sparse", "hub_toolbox/hubness.py:Hubness.fit_transform"]}
{"id": "C47", "title": "enforce_finite_distances yields finite non-negative values", "statement": "In exact arithmetic the result contains only finite values >= 0, keeps the order of finite entries, maps every non-finite entry to the largest finite value (1 if there is none), and is idempotent. DEFECT: in float64 the shift can overflow to infinity (witness).", "quantifier": "all arrays; one float64 witness", "why_tests_cant": "Universal over arrays.", "anchors": ["hub_toolbox/approximate.py:enforce_finite_distances"]}
{"id": "C48", "title": "DEFECT: the sparse secondary distance matrix sums duplicate neighbours", "statement": "SuQHR builds its sparse distance matrix from (row, neighbour index, distance) triples. If the neighbour indices of a row are distinct each stored value is the computed secondary distance; if the list was padded by repeating an index, the stored value is the sum over the repetitions.", "quantifier": "all index and distance arrays", "why_tests_cant": "Only padded candidate lists trigger it.", "anchors": ["hub_toolbox/approximate.py:SuQHR._sparse_distance_matrix"]}
{"id": "C49", "title": "options of the sparse Goodman-Kruskal index", "statement": "With zero_mv=True exactly the quadruples of two non-zero similarities are counted, for values of any sign; heuristic='equal_sim' returns the same index whenever no non-zero within-class similarity equals a between-class one, and a different one for some matrix with such ties.", "quantifier": "all matrices without NaN and label vectors; a witness with ties", "why_tests_cant": "Universal over matrices; the interplay of implicit zeros, ties and the scan is not visible on single examples.", "anchors": ["hub_toolbox/goodman_kruskal.py:sparse_goodman_kruskal_index"]}
{"id": "C50", "title": "DEFECT: predict returns class numbers instead of class labels", "statement": "Without test_ind, each value returned by predict is the position, in the sorted list of distinct labels, of the label elected by the finite k nearest neighbours (strict plurality, else the nearest neighbour's label). It is therefore a valid label only when the labels are 0..c-1; a witness with labels {10, 20} returns 0 and 1.", "quantifier": "all square matrices, label matrices, lists of k, metrics, permutations and argsort results", "why_tests_cant": "Tests with labels 0..c-1 cannot see it; the characterisation is universal.", "anchors": ["hub_toolbox/knn_classification.py:predict"]}
{"id": "C51", "title": "sparse mutual proximity with min_nnz keeps poor rows and marks their columns NaN", "statement": "For a sparse symmetric similarity matrix, an object with at most min_nnz stored similarities keeps its original row; every other object's value towards it is NaN wherever a non-zero similarity is stored, and nothing is stored where nothing was.", "quantifier": "all sparse symmetric matrices, all min_nnz, all schedules of the worker pool", "why_tests_cant": "Universal over matrices and schedules.", "anchors": ["hub_toolbox/global_scaling.py:_mutual_proximity_empiric_sparse", "hub_toolbox/global_scaling.py:_mpes_sec_dist"]}
{"id": "C52", "title": "DEFECT: local scaling accepts k = n and k = 0 and then erases all distances", "statement": "local_scaling(D, k) with k = n or k = 0 raises no error and returns 0 for every pair of points, whatever the distances; nicdm(D, n) raises no error and returns NaN for every pair of different points.", "quantifier": "all square matrices with finite off-diagonal entries, all partition results, all schedules", "why_tests_cant": "The claim is about every matrix; a test shows one.", "anchors": ["hub_toolbox/local_scaling.py:local_scaling", "hub_toolbox/local_scaling.py:nicdm"]}
{"id": "C53", "title": "DEFECT: held-out points shift the neighbour rank used by local scaling of similarities", "statement": "local_scaling(D, k, 'similarity', test_ind) with t held-out points scales each point by its (k - t)-th largest training similarity instead of the k-th, and raises ValueError whenever t >= k.", "quantifier": "all square matrices, all 1 <= k < n, all test sets, all schedules", "why_tests_cant": "The rank is a function of every k and every test set.", "anchors": ["hub_toolbox/local_scaling.py:local_scaling"]}
{"id": "C54", "title": "DEFECT: non-positive n_jobs fails late in local_scaling and is accepted by nicdm", "statement": "For n_jobs < 1 other than -1 local_scaling never returns a matrix: on every input which n_jobs = 1 handles it raises UnboundLocalError; nicdm returns the same result as with n_jobs = 1.", "quantifier": "all inputs, all n_jobs < 1 other than -1, all schedules", "why_tests_cant": "Universal over inputs and settings.", "anchors": ["hub_toolbox/local_scaling.py:local_scaling", "hub_toolbox/local_scaling.py:nicdm"]}
{"id": "C55", "title": "DEFECT: weighted centering gives the largest weights to the points least similar to the mean", "statement": "weighted_centering(X, 'cosine', gamma > 0) subtracts from every row one and the same convex combination of all rows, whose weights strictly decrease with the cosine similarity to the training mean; the documented purpose is to move the origin towards hubs, i.e. the points most similar to the mean.", "quantifier": "all finite matrices without zero rows and with non-zero training mean, all gamma > 0, all test masks", "why_tests_cant": "Universal over data and gamma.", "anchors": ["hub_toolbox/centering.py:weighted_centering"]}
{"id": "C56", "title": "local DisSim subtracts both distances to the local centroids", "statement": "dis_sim_local(X, k) returns, for every two different points, the squared distance minus the squared distances of both to the mean of their k nearest other points, and -inf on the diagonal; with separate training points Y the lists are drawn from Y; the result is unchanged by moving all points, and by the number of workers and their schedule; k >= number of points raises ValueError.", "quantifier": "all finite data, all 0 < k < n, all partition results, all worker counts and schedules", "why_tests_cant": "Universal over data, tie-breaking and schedules.", "anchors": ["hub_toolbox/centering.py:dis_sim_local"]}
{"id": "C57", "title": "lp_norm is the Minkowski distance for every p > 0", "statement": "lp_norm(X, Y, p) equals (sum |x-y|^p)^(1/p) for every p > 0, including the special-cased p = 1 and p = 2; without Y it is symmetric, zero on the diagonal, non-negative, translation invariant and homogeneous; p=None raises ValueError.", "quantifier": "all finite data, all p > 0", "why_tests_cant": "Universal over data and exponents.", "anchors": ["hub_toolbox/distances.py:lp_norm"]}
{"id": "C58", "title": "localized centering: similarity minus a penalty for being close to one's own neighbours", "statement": "localized_centering(X, Y, kappa, gamma) returns the cosine similarity minus (mean similarity of the column point to its kappa most similar points)^gamma (without the exponent for the whole matrix as soon as one such mean is negative), is unchanged when rows are multiplied by positive factors and by the schedule of the worker pool, always terminates with an outcome, and raises ValueError if kappa is larger than the number of points.", "quantifier": "all finite data, all kappa and gamma >= 0, all partition results, worker counts and schedules", "why_tests_cant": "Universal over data, tie-breaking and schedules.", "anchors": ["hub_toolbox/centering.py:localized_centering"]}
{"id": "C59", "title": "DEFECT: local DisSim with explicit Y counts each training point as its own neighbour", "statement": "dis_sim_local(X, Y, k) draws the neighbours of each training point from all of Y, itself included; when the points are pairwise different every training point is in its own list, and dis_sim_local(X, Y=X, k=1) is just the matrix of squared distances, unlike dis_sim_local(X, k=1).", "quantifier": "all data with pairwise different training points, all k < n_train", "why_tests_cant": "The claim is about every data set.", "anchors": ["hub_toolbox/centering.py:dis_sim_local"]}
{"id": "C60", "title": "matrix_split batches cover all rows and fit into memory; DEFECT: too little memory divides by zero", "statement": "If matrix_split returns (nr_batches, nr_rows) then the batches cover all rows, none is empty, and nr_matrices copies of one batch fit into the free memory; when fewer than nr_matrices rows fit, it raises ZeroDivisionError.", "quantifier": "all shapes, element sizes, copy counts and amounts of free memory", "why_tests_cant": "The result depends on the machine's free memory.", "anchors": ["hub_toolbox/io.py:matrix_split"]}
{"id": "C61", "title": "random_sparse_matrix yields a similarity matrix for every random draw", "statement": "For every non-negative random draw the result is square, symmetric, has ones on the diagonal, all values in [0,1], and stores an off-diagonal value exactly where the draw had one in either triangle.", "quantifier": "all sizes, all draws", "why_tests_cant": "The output is random; tests see single draws.", "anchors": ["hub_toolbox/io.py:random_sparse_matrix"]}
{"id": "C62", "title": "DEFECT: analyses without vectors end in internal errors", "statement": "On a HubnessAnalysis made from a distance matrix without vectors, the experiments cent, wcent, dsg and dsl always raise AttributeError and lcent always raises TypeError; as the default experiment list contains cent, analyze_hubness() with default arguments always raises and keeps at most the experiments orig, mp, mp_gaussi and nicdm.", "quantifier": "all matrices, labels, metrics and lists of k", "why_tests_cant": "The claim is about every input; tests use single data sets with vectors.", "anchors": ["hub_toolbox/hubness_analysis.py:HubnessAnalysis.analyze_hubness", "hub_toolbox/hubness_analysis.py:HubnessExperiment._calc_secondary_distance"]}
{"id": "C63", "title": "DEFECT: vector based experiments are evaluated upside down for similarity data", "statement": "With metric='similarity' the experiments cent, wcent, lcent, dsg and dsl produce dissimilarities but hubness is computed as if they were similarities: in every such experiment no unlisted point is more dissimilar than a listed one, so the reported k nearest neighbours are the k farthest.", "quantifier": "all data, lists of k, partition results and permutations; a witness", "why_tests_cant": "Universal over data; the results look plausible.", "anchors": ["hub_toolbox/hubness_analysis.py:HubnessExperiment._calc_hubness"]}
{"id": "C67", "title": "k-means++ seeding returns a greedy run over existing objects", "statement": "kmeanspp returns n_clusters indices of existing objects. The first is the random one; each later one is, among one candidate per uniform number drawn with probability proportional to the distance to the closest earlier centre, one that leaves the smallest sum of closest distances. The indices are pairwise different when different objects have positive distance, n_clusters does not exceed the number of objects and no uniform number is exactly 0; a round of zeros selects object 0 even if it is a centre already, and more centres than objects force a repetition.", "quantifier": "all distances, first draws, sequences of uniform numbers and numbers of centres", "why_tests_cant": "The random numbers range over a continuum; tests fix a seed.", "anchors": ["hub_toolbox/approximate.py:kmeanspp"]}
{"id": "C68", "title": "Approximate empiric mutual proximity counts vantage points, independently of the worker count", "statement": "ApproximateHubnessReduction with hr_algorithm='mp' and fixed vantage points returns, for every query and vantage point, one minus the fraction of vantage points farther from both than they are from each other. The result, or the error, is the same for every n_jobs and every schedule; it fails, with ValueError, exactly for an unknown metric, empty or non-finite data, different numbers of features, or random sampling of all objects or more. Values are in (0,1]. Without sampling, transforming the training data gives the exact mutual proximity off the diagonal.", "quantifier": "all data, metrics' distances, samplings, worker counts, schedules", "why_tests_cant": "Parallel schedules and all data cannot be enumerated.", "anchors": ["hub_toolbox/approximate.py:SuQHR", "hub_toolbox/approximate.py:SuQHR._transform_mp", "hub_toolbox/approximate.py:_mp_full", "hub_toolbox/global_scaling.py:mutual_proximity_empiric"]}
{"id": "C69", "title": "DEFECT: approximate Gaussian mutual proximity counts the self distance when it samples", "statement": "With hr_algorithm='mpg' each value is one minus the product of the two normal survival probabilities of the distance, so lies in [0,1] when the deviations are positive and is NaN when a query is equally far from all vantage points. Without sampling the moments of a vantage point are taken over the other vantage points; with sampling the zero self distance is included, which shrinks the mean by (s-1)/s and changes the variance accordingly.", "quantifier": "all data, samplings, survival functions", "why_tests_cant": "A claim about every data set; the biased values look plausible.", "anchors": ["hub_toolbox/approximate.py:SuQHR._fit_mpg", "hub_toolbox/approximate.py:SuQHR._transform_mpg"]}
{"id": "C70", "title": "Approximate local scaling uses the k-th radius; DEFECT: approximate NICDM depends on the order np.partition leaves", "statement": "With hr_algorithm='ls' each value is 1-exp(-d^2/(r_x r_t)) with r_x the k-th smallest distance of the query and r_t the k-th smallest distance of the vantage point to the others, for every partition the library may return; it needs more than k vantage points (else ValueError), an unknown metric raises UnboundLocalError, and values are in [0,1), zero exactly at distance zero, when fewer than k distances are zero. With 'nicdm' the radius of a vantage point is the mean of the k smallest distances to others minus x0/k, where x0 is whatever np.partition puts first: one legal result gives 0, another the (k-1)-th smallest distance.", "quantifier": "all data, samplings, k, partition results", "why_tests_cant": "Tests run one implementation of np.partition on single data sets.", "anchors": ["hub_toolbox/approximate.py:SuQHR._fit_ls", "hub_toolbox/approximate.py:SuQHR._transform_ls"]}
{"id": "C71", "title": "Approximate DisSim Local subtracts the distances to local centroids; DEFECT: the neighbours of vantage points depend on the order np.argpartition leaves", "statement": "With hr_algorithm='dsl' and fixed vantage points each value is the distance of query and vantage point minus the distance of each to the mean of its local neighbours. A query uses its k nearest vantage points; a vantage point uses k of the k+1 vantage points nearest to it, itself included. Which one is left out is not specified by numpy: one legal argpartition gives the k nearest others, another gives the point itself and the k-1 nearest others, so that for k=1 the results differ by the distance to the nearest other vantage point. At most k+1 vantage points, or an unknown metric, raise ValueError.", "quantifier": "all data, samplings, k, argpartition results", "why_tests_cant": "Tests run one implementation of np.argpartition on single data sets.", "anchors": ["hub_toolbox/approximate.py:SuQHR._fit_dsl", "hub_toolbox/approximate.py:SuQHR._transform_dsl"]}
{"id": "C74", "title": "ApproximateHubnessReduction validates its arguments; DEFECT: 'precomputed' is accepted but unusable", "statement": "The constructor succeeds exactly if the algorithm and the sampling are None, 'none' or one of the documented names in any mixture of case, n_neighbors and n_samples are at least 1, the metric and predictor are known, n_jobs is -1 or at least 1, verbose is not negative and the library for the sampling is installed; it stores the canonical names and n_jobs=-1 becomes the number of processors. Otherwise it raises ImportError (library missing) or ValueError. metric='precomputed' is accepted, but every method with fixed vantage points raises with it (UnboundLocalError for LS and NICDM, ValueError otherwise), and without hubness reduction it silently means squared Euclidean distance of the given rows.", "quantifier": "all arguments; all data for the last part", "why_tests_cant": "Strings and integers are unbounded domains.", "anchors": ["hub_toolbox/approximate.py:SuQHR.__init__", "hub_toolbox/approximate.py:SuQHR._transform_without_hr"]}
{"id": "C72", "title": "Candidate lists from an index are padded; DEFECTS: with 'cosine' the converted values are reversed or the padding is nearest, with one LSH worker the padding is uninitialised memory", "statement": "With sampling_algorithm 'hnsw' every training object gets the answers of the index without the first, every query all answers, and missing places repeat the last index with the largest answered value; fitting succeeds exactly if every answer has 1 to n_samples+1 entries. An object for which only itself is found becomes its own neighbour. With 'cosine', if the index answers distances the stored distances descend; if it answers similarities the padding gets the smallest distance of all. With 'lsh' and several workers the padding is the largest distance for every schedule; with one worker it can be any larger value found in uninitialised memory, and for metric 'precomputed' all distances of training rows are arbitrary.", "quantifier": "all answers of an index, numbers of candidates, worker counts, schedules, contents of fresh memory", "why_tests_cant": "The index, the schedule and the memory contents are outside the control of a test.", "anchors": ["hub_toolbox/approximate.py:SuQHR._hnsw_filtering", "hub_toolbox/approximate.py:SuQHR._hnsw_trafo", "hub_toolbox/approximate.py:SuQHR._lsh_filtering", "hub_toolbox/approximate.py:SuQHR._lsh_trafo", "hub_toolbox/approximate.py:_lsh_filt", "hub_toolbox/approximate.py:_lsh_trafo"]}
{"id": "C73", "title": "Mutual proximity on index candidates counts uncovered training objects; exact if the index is; DEFECT: with LSH and 'cosine' the threshold is compared with negative inner products", "statement": "With hr_algorithm='mp' and 'hnsw' the value of query and j-th candidate is one minus the fraction of training objects that are neither among the first j candidates of the query nor among the listed neighbours of the candidate within the distance, provided the stored distances of the candidate ascend. It is the same for every schedule and in (0,1]. If the index is exact and lists everything, it is the fraction of the mutual proximity definition. With 'lsh' the two lists are the answers to radius queries; for 'cosine' the index compares negative inner products with the cosine distance, so for data without negative inner products an exact index answers every object and every value at a positive distance is 1.", "quantifier": "all answers of an index, data, schedules", "why_tests_cant": "The index and the schedule are outside the control of a test.", "anchors": ["hub_toolbox/approximate.py:SuQHR._transform_mp", "hub_toolbox/approximate.py:_mp_hnsw", "hub_toolbox/approximate.py:_mp_lsh"]}
{"id": "C75", "title": "predict lets the nearest candidates vote; DEFECTS: with an index knn__n_neighbors is ignored and padding votes", "statement": "predict gives each query the smallest of the most frequent labels among its K nearest candidates by secondary distance, where a secondary distance that is not finite counts as the largest finite one of the matrix; fewer than K candidates raise ValueError. With fixed vantage points K is knn__n_neighbors, 5 by default; with an index K is n_neighbors and knn__n_neighbors has no influence. Padding votes too: if n_samples = n_neighbors and the index finds at most half of them, the label of the farthest candidate found wins whatever the others are. With an index, if all secondary distances are finite and no two candidates of a query have the same, the prediction does not depend on np.argpartition.", "quantifier": "all secondary distances, candidate lists, labels, neighbour numbers, argpartition results", "why_tests_cant": "Infinitely many distance matrices and candidate lists.", "anchors": ["hub_toolbox/approximate.py:SuQHR._predict_knn", "hub_toolbox/approximate.py:SuQHR.predict", "hub_toolbox/approximate.py:enforce_finite_distances"]}
{"id": "C76", "title": "Local scaling, NICDM and DisSim Local on an exact index agree with their definitions; DEFECTS: Gaussian moments are biased, n_samples < n_neighbors is handled inconsistently", "statement": "If the index is exact, the radii of local scaling are the distances of rank n_neighbors, those of NICDM the means of the n_neighbors smallest distances, and DisSim Local uses the centroids of the n_neighbors nearest objects. Gaussian mutual proximity takes mean and deviation from the listed candidates only: the mean is never larger than over all objects, and smaller if an unlisted object is farther than the last candidate. With n_samples < n_neighbors local scaling raises IndexError in transform, while NICDM and DisSim Local silently use n_samples neighbours.", "quantifier": "all distances, candidate lists of an exact index, data", "why_tests_cant": "A claim for all data sets.", "anchors": ["hub_toolbox/approximate.py:SuQHR._fit_ls", "hub_toolbox/approximate.py:SuQHR._transform_ls", "hub_toolbox/approximate.py:SuQHR._fit_mpg", "hub_toolbox/approximate.py:SuQHR._transform_mpg", "hub_toolbox/approximate.py:SuQHR._fit_dsl", "hub_toolbox/approximate.py:SuQHR._transform_dsl"]}
{"id": "C77", "title": "simhubIN distances follow the informativeness of common neighbours; different objects keep a minimum distance", "statement": "simhubIN of a square distance matrix returns, for different objects, one minus the sum of ln(m/N(x)) over the common neighbours x divided by s ln m, where N(x) counts the neighbourhoods containing x, its own included. Similarities are symmetric, at least 0 and at most the share of common neighbours (so the hubness aware similarity never exceeds the plain shared neighbour similarity); the diagonal is 0 for distances, 1 for similarities. With finite distances, m >= 3 and s < m, no two different objects, not even duplicates, are nearer than ln 3/ln m.", "quantifier": "all square matrices, neighbourhood sizes, legal argsort results", "why_tests_cant": "Infinitely many matrices; exact identities and bounds of logarithms.", "anchors": ["hub_toolbox/shared_neighbors.py:simhubIN"]}
{"id": "C78", "title": "simhubIN does not depend on the number of workers or their schedule", "statement": "For every n_jobs (including -1, whatever the number of processors) and every schedule of both worker pools simhubIN ends, with the result of the serial computation or the same exception.", "quantifier": "all inputs, worker counts, distributions of tasks, interleavings of writes", "why_tests_cant": "Schedules cannot be enumerated by tests.", "anchors": ["hub_toolbox/shared_neighbors.py:simhubIN", "hub_toolbox/shared_neighbors.py:_shi_hood", "hub_toolbox/shared_neighbors.py:_shi_simhub_vect", "hub_toolbox/shared_neighbors.py:_shi_simhub"]}
{"id": "C79", "title": "Unsupervised simhub equals simhubIN; DEFECT: only simhub checks the neighbourhood size", "statement": "On square matrices with finite distances and 0 < s < m simhub without labels returns the same matrix as simhubIN, for every test set, and vect_usage never matters. For every other s simhub raises ValueError, while simhubIN with s=0 silently returns NaN for all pairs of different objects.", "quantifier": "all square matrices, sizes, test sets, vect_usage", "why_tests_cant": "Equality of two programs on all inputs.", "anchors": ["hub_toolbox/shared_neighbors.py:simhub", "hub_toolbox/shared_neighbors.py:simhubIN"]}
{"id": "C80", "title": "Sampled simhub is right for leading training rows; DEFECT: for other samples occurrences are counted in the wrong rows and the loop branch compares the wrong objects", "statement": "If the training objects are the first rows in order, simhubIN returns the specified similarity of every test object and training object, in [0,1]. For an arbitrary sample occurrences are counted over the first m rows, whichever objects these are, and from 2000 columns on training object j is replaced by row j. There are samples where objects without informative common neighbour get a positive similarity, where simhub returns different values for vect_usage 1 and -1, and where simhub distances exceed 1.", "quantifier": "all matrices, samples, test sets, neighbourhood sizes", "why_tests_cant": "Infinitely many samples; the second branch needs 2000 columns.", "anchors": ["hub_toolbox/shared_neighbors.py:simhubIN", "hub_toolbox/shared_neighbors.py:simhub"]}
{"id": "C81", "title": "Supervised simhub weighs common neighbours by information gain; DEFECTS: out of range with three classes, NaN with one class", "statement": "simhub with labels returns one minus the sum of ln(m/N(x)) times the information gain of x over common neighbours, divided by s ln m ln C. It is symmetric, similarities are at most 1, and with two classes at least 0. Since one occurrence is added to every class but only one to the total, with three classes the gain can be negative and distances exceed 1. With one class all pairs of different objects get NaN. The assertion on the class counts never fails unless the label list is empty.", "quantifier": "all matrices, labels, neighbourhood sizes", "why_tests_cant": "Infinitely many matrices and labellings.", "anchors": ["hub_toolbox/shared_neighbors.py:simhub"]}
{"id": "C82", "title": "Gaussian Mutual Proximity is the product of two normal tail probabilities", "statement": "For a square matrix with finite off-diagonal entries mutual_proximity_gaussi returns a symmetric matrix with values in [0,1]: for similarities the product of the two normal distribution functions of the value, with mean and standard deviation of the values of either object to the other training objects; for distances one minus the product of the complements. Zeros and self distances do not enter as written. The diagonal is 0 (distance) or 1 (similarity).", "quantifier": "all finite square matrices, both metrics, all test sets leaving two training objects", "why_tests_cant": "Exact value for infinitely many matrices.", "anchors": ["hub_toolbox/global_scaling.py:mutual_proximity_gaussi"]}
{"id": "C83", "title": "Gaussian Mutual Proximity does not depend on the unit or origin of the distances", "statement": "Replacing every off-diagonal distance d by a*d+b with a>0 does not change the result, provided no object has constant distances.", "quantifier": "all finite square matrices, factors, offsets, metrics, test sets", "why_tests_cant": "Relates infinitely many pairs of runs.", "anchors": ["hub_toolbox/global_scaling.py:mutual_proximity_gaussi"]}
{"id": "C84", "title": "Gaussian Mutual Proximity pushes hubs away", "statement": "If an object is equally far from two others, then the one for which this distance is nearer relative to mean and spread of its own distances never gets the larger Mutual Proximity value: the ordering is decided by the standardised distances of the neighbours.", "quantifier": "all finite square matrices, triples of objects, both metrics", "why_tests_cant": "A monotonicity claim over all matrices.", "anchors": ["hub_toolbox/global_scaling.py:mutual_proximity_gaussi"]}
{"id": "C85", "title": "Held-out objects do not influence the scaling of the others", "statement": "With test_ind two matrices that agree on the training objects give the same values between training objects (Gaussian and Gamma), and in the Gaussian variant a value involving a held-out object depends only on that pair and the columns of the two objects over training rows.", "quantifier": "all matrices (NaN and inf included), arithmetics, test sets", "why_tests_cant": "Non-interference: a claim about all pairs of matrices.", "anchors": ["hub_toolbox/global_scaling.py:mutual_proximity_gaussi", "hub_toolbox/global_scaling.py:mutual_proximity_gammai"]}
{"id": "C86", "title": "Sampled Gaussian Mutual Proximity uses the moments of the sampled columns", "statement": "For a matrix of distances to sampled objects (idx) every row is scaled with mean and deviation of its sampled distances, self distances left out; the cell of an object with itself gets the self value; values lie in [0,1]. mutual_proximity_gaussi with idx gives the same result as mutual_proximity_gaussi_sample, and test_ind selects rows of the full result.", "quantifier": "all n x s matrices with finite entries, samples without repetition, both metrics, row selections", "why_tests_cant": "Infinitely many matrices and samples.", "anchors": ["hub_toolbox/global_scaling.py:mutual_proximity_gaussi_sample", "hub_toolbox/global_scaling.py:mutual_proximity_gaussi"]}
{"id": "C87", "title": "Sampling all objects equals not sampling", "statement": "For a symmetric matrix mutual_proximity_gaussi_sample with idx = 0..n-1 returns the same matrix as mutual_proximity_gaussi.", "quantifier": "all symmetric finite matrices of at least two objects, both metrics", "why_tests_cant": "Equality of two programs on all inputs.", "anchors": ["hub_toolbox/global_scaling.py:mutual_proximity_gaussi_sample", "hub_toolbox/global_scaling.py:mutual_proximity_gaussi"]}
{"id": "C88", "title": "DEFECT: sample_size of Gaussian Mutual Proximity cannot be used", "statement": "On every square matrix with a valid metric and without idx any sample_size other than 0 raises TypeError, while 0 succeeds; with idx neither sample_size nor test_ind has an effect.", "quantifier": "all square matrices, metrics, sample sizes, test sets, samples", "why_tests_cant": "Claims that no value works.", "anchors": ["hub_toolbox/global_scaling.py:mutual_proximity_gaussi"]}
{"id": "C89", "title": "Gamma Mutual Proximity is the product of two gamma tail probabilities and scale invariant", "statement": "For matrices with positive mean off-diagonal values mutual_proximity_gammai returns a symmetric matrix in [0,1] with shape mean^2/variance and scale variance/mean of either object's values to the training objects. Multiplying all distances by a positive factor does not change it if no object has constant distances.", "quantifier": "all finite square matrices with positive column means, both metrics, test sets", "why_tests_cant": "Exact value for infinitely many matrices.", "anchors": ["hub_toolbox/global_scaling.py:mutual_proximity_gammai", "hub_toolbox/global_scaling.py:_local_gamcdf"]}
{"id": "C90", "title": "Sparse Gaussian Mutual Proximity scales stored similarities with the moments of stored similarities; objects with constant similarities get NaN", "statement": "For a sparse similarity matrix with unit diagonal mutual_proximity_gaussi stores no entry where there was none, keeps unit self similarities, is symmetric, and gives a stored pair the product of the normal distribution functions with mean and deviation of the stored similarities of either object. DEFECT: if one of the objects has constant stored similarities the result is NaN (the dense variant replaces deviation 0).", "quantifier": "all sparse similarity matrices with unit diagonal", "why_tests_cant": "Infinitely many matrices and patterns.", "anchors": ["hub_toolbox/global_scaling.py:_mutual_proximity_gaussi_sparse", "hub_toolbox/global_scaling.py:mutual_proximity_gaussi"]}
{"id": "C91", "title": "Sparse and dense Gaussian Mutual Proximity agree on completely stored matrices", "statement": "If all similarities are stored and no object has constant similarities the sparse and the dense computation give the same values.", "quantifier": "all symmetric similarity matrices without zeros", "why_tests_cant": "Equality of two programs on all inputs.", "anchors": ["hub_toolbox/global_scaling.py:_mutual_proximity_gaussi_sparse", "hub_toolbox/global_scaling.py:mutual_proximity_gaussi"]}
{"id": "C92", "title": "DEFECT: sparse Gaussian and Gamma Mutual Proximity ignore metric='distance', Gaussian also min_nnz", "statement": "For every sparse matrix metric='distance' gives the same outcome as 'similarity' (values scaled as similarities, unit diagonal), and the Gaussian result is the same for all min_nnz and sample_size. Matrices with a zero self distance raise ValueError, whatever the metric. The empiric variant raises ValueError for 'distance' in every execution.", "quantifier": "all sparse matrices, min_nnz, sample sizes, test sets, schedules", "why_tests_cant": "Equality of outcomes for all inputs.", "anchors": ["hub_toolbox/global_scaling.py:_mutual_proximity_gaussi_sparse", "hub_toolbox/global_scaling.py:_mutual_proximity_gammai_sparse", "hub_toolbox/global_scaling.py:_mutual_proximity_empiric_sparse"]}
{"id": "C93", "title": "DEFECT: held-out objects of sparse matrices get NaN", "statement": "With test_ind the sparse Gaussian variant subtracts the self similarity from the moments of objects that are not among the summed rows; if the squared similarities of a held-out object to the training objects sum to less than 1, all its stored similarities become NaN.", "quantifier": "all sparse similarity matrices, test sets, pairs with a held-out object", "why_tests_cant": "Infinitely many matrices.", "anchors": ["hub_toolbox/global_scaling.py:_mutual_proximity_gaussi_sparse"]}
{"id": "C94", "title": "Sparse Gamma Mutual Proximity: values; DEFECT: objects with few neighbours are treated differently depending on their position", "statement": "Pairs whose first object has more than min_nnz stored values get the product of the gamma distribution functions (if the similarities of both to others are at least two, not constant and of positive mean), and so does the mirrored cell if the second object has, otherwise that row keeps the original similarities. If the first object of a pair has too few stored values, the other object's cell is not stored at all: whether a similarity to such an object is kept depends on the order of the objects, and the documented NaN is not stored in that cell (for stored NaN see C171).", "quantifier": "all sparse similarity matrices, thresholds, pairs of objects", "why_tests_cant": "Infinitely many matrices; a claim about reordering objects.", "anchors": ["hub_toolbox/global_scaling.py:_mutual_proximity_gammai_sparse"]}
{"id": "C95", "title": "The intrinsic dimension is the maximum likelihood estimate of Levina and Bickel (or MacKay's variant)", "statement": "For n distinct objects (the rows, after the requested transformation), 3 <= k1 <= k2 < n, and no object with its k1 nearest neighbours all at one distance, intrinsic_dimension returns for 'levina' the mean over objects and k of (k-2)/sum_j ln(T_k/T_j), for 'mackay' the mean over k of the harmonic mean over objects, T_j being the distance to the j-th nearest other object; the result is a positive real, not rounded. A distance of 0 counts as sqrt(1e-7).", "quantifier": "all finite data, both estimators, all transformations, neighbourhood ranges, legal sorts", "why_tests_cant": "Exact value for infinitely many data sets.", "anchors": ["hub_toolbox/intrinsic_dimension.py:intrinsic_dimension"]}
{"id": "C96", "title": "The intrinsic dimension depends only on relative distances", "statement": "The outcome does not depend on the order of the objects nor on mem_threshold; without transformation it is the same for any data with the same pairwise distances (rotations, embeddings in more dimensions), and for distinct objects it does not depend on the scale; translations never matter.", "quantifier": "all finite data, permutations, isometries, factors, offsets, thresholds, parameters (invalid ones included)", "why_tests_cant": "Relates infinitely many pairs of runs.", "anchors": ["hub_toolbox/intrinsic_dimension.py:intrinsic_dimension"]}
{"id": "C97", "title": "DEFECT: k1=1 always gives infinity, k=2 contributes 0, ties give NaN or minus infinity", "statement": "k1=1 passes the check of the neighbourhood range but gives infinity for all distinct objects without ties; for k1=2 the estimate is exactly (k2-2)/(k2-1) times that for k1=3. If an object has its two nearest neighbours at the same distance and 2 is in the range the result is NaN; if its k1 >= 3 nearest are, the Levina-Bickel estimate is minus infinity.", "quantifier": "all finite data sets of distinct objects, transformations, ranges", "why_tests_cant": "A claim for all data sets.", "anchors": ["hub_toolbox/intrinsic_dimension.py:intrinsic_dimension"]}
{"id": "C98", "title": "DEFECT: duplicates are not removed; the estimate can be negative", "statement": "The comment promises unique rows, but rows are only sorted. A duplicate counts as a neighbour at distance sqrt(1e-7), which may be farther than the next neighbours: for the points 0, 0, d, 3d with any d up to 1e-5 the default estimator with k1=k2=3 returns a negative dimension.", "quantifier": "all d in (0, 1e-5], legal sorts, mem_threshold", "why_tests_cant": "A family of inputs of measure zero for random tests.", "anchors": ["hub_toolbox/intrinsic_dimension.py:intrinsic_dimension"]}
{"id": "C99", "title": "Which calls of intrinsic_dimension are accepted; DEFECT: metric='distance' never is", "statement": "A call succeeds iff the estimator is 'levina' or 'mackay', 0 < k1 <= k2 < number of rows, metric is 'vector' and trafo is None, 'std' or 'var'; otherwise it raises ValueError or NotImplementedError. The documented metric 'distance' is never accepted.", "quantifier": "all arrays, integers, strings, arithmetics", "why_tests_cant": "All strings and integers.", "anchors": ["hub_toolbox/intrinsic_dimension.py:intrinsic_dimension"]}
{"id": "C100", "title": "R-precision of an object", "statement": "For a sparse similarity matrix in which every object is most similar to itself, r_precision gives object i the fraction h/R, R being the number of other objects with its label and h how many of its min(R, number of stored others) most similar other objects have its label (0 if h = 0). Every precision and both averages are between 0 and 1 in double precision, however sums are associated.", "quantifier": "all sparse similarity matrices without NaN and stored zeros, label vectors with at least one shared label, tie-breaking, random permutations, argpartition results", "why_tests_cant": "Infinitely many matrices and all random draws.", "anchors": ["hub_toolbox/knn_classification.py:r_precision"]}
{"id": "C101", "title": "r_precision does not depend on randomness or scheduling when there are no ties", "statement": "If no row has two equal stored similarities, two calls of r_precision return the same precisions, averages and relevant counts, whatever permutations are drawn, whichever worker processes an object, and whatever argpartition does outside of the requested positions.", "quantifier": "all tie-free similarity matrices, pairs of runs", "why_tests_cant": "Relates all pairs of runs.", "anchors": ["hub_toolbox/knn_classification.py:r_precision"]}
{"id": "C102", "title": "Macro and weighted R-precision", "statement": "The macro average is the mean of the precisions over all objects, objects alone in their class counting as 0. The weighted average is the total number of correct neighbours over the total number of relevant items.", "quantifier": "all similarity matrices as in C100, exact arithmetic", "why_tests_cant": "Exact value for infinitely many inputs.", "anchors": ["hub_toolbox/knn_classification.py:r_precision"]}
{"id": "C103", "title": "Input r_precision refuses or cannot handle", "statement": "Dense matrices and metric='distance' raise NotImplementedError; labels that are all different raise ZeroDivisionError; an empty row of an object that shares its label raises ValueError; an explicitly stored zero in such a row raises IndexError if no stored value is NaN (with NaN see C175).", "quantifier": "all matrices, label vectors, random draws", "why_tests_cant": "All matrices of each kind.", "anchors": ["hub_toolbox/knn_classification.py:r_precision"]}
{"id": "C104", "title": "DEFECT: r_precision counts an object as its own correct neighbour", "statement": "The most similar object of each row is dropped, whether it is the object itself or not. If between 1 and R other objects are more similar to i than i itself, without ties, then i is among its own R neighbours and counted as a hit; there are similarity matrices in which an object reaches precision 1 without any other correct neighbour.", "quantifier": "all such similarity matrices, random draws", "why_tests_cant": "Characterises all inputs with this structure.", "anchors": ["hub_toolbox/knn_classification.py:r_precision"]}
{"id": "C105", "title": "Neighbour labels returned by r_precision", "statement": "Each row of the returned labels has the requested length. It lists the labels of the R-nearest neighbours, the nearest first, padded with the smallest integer; rows without hit contain only the padding. Beyond the first, the order of the labels need not follow the similarity.", "quantifier": "all finite similarity matrices, random draws, legal argpartition results", "why_tests_cant": "All matrices and all legal partial sorts.", "anchors": ["hub_toolbox/knn_classification.py:r_precision"]}
{"id": "C106", "title": "k-NN evaluation of a sparse similarity matrix", "statement": "For a sparse similarity matrix in which every object is most similar to itself, score reports for each k the result of predicting every object from its min(k, number of stored others) most similar other objects: majority, ties broken by the most similar one. Objects without stored similarity to others get an extra label that no object has. Accuracy, correctness flags and confusion matrix (with one row and column for that label) describe these predictions.", "quantifier": "all finite sparse similarity matrices, labels, lists of k, random draws, legal argpartition results", "why_tests_cant": "Infinitely many matrices and all random draws.", "anchors": ["hub_toolbox/knn_classification.py:score"]}
{"id": "C107", "title": "Sparse and dense k-NN evaluation agree", "statement": "If all similarities are stored, finite and without ties, score returns the same accuracy, flags and confusion matrix for the sparse and for the dense matrix.", "quantifier": "all fully stored tie-free similarity matrices, labels, lists of k, random draws of both calls", "why_tests_cant": "Relates two code paths for all matrices.", "anchors": ["hub_toolbox/knn_classification.py:score"]}
{"id": "C108", "title": "DEFECT: score ignores metric='distance' for sparse input", "statement": "For sparse input score returns the same for metric='distance' and 'similarity': the farthest stored object is left out as if it were the object itself and the next k farthest vote. There are sparse distance matrices for which every prediction is wrong while the dense evaluation is all correct.", "quantifier": "all sparse matrices of positive distances, labels, lists of k, random draws", "why_tests_cant": "Characterises all sparse distance matrices.", "anchors": ["hub_toolbox/knn_classification.py:score"]}
{"id": "C109", "title": "DEFECT: with sparse input, held-out objects take part in the vote", "statement": "score with test_set_ind on a sparse matrix gives every held-out object the flag of the leave-one-out evaluation. If the most similar object of every held-out object is held out too and shares its label, the evaluation with k=1 is perfect even though no training object may have such a label.", "quantifier": "all sparse similarity matrices, test sets, random draws", "why_tests_cant": "A relation between runs for all inputs.", "anchors": ["hub_toolbox/knn_classification.py:score"]}
{"id": "C110", "title": "Sparse input score refuses or cannot handle", "statement": "sample_idx with sparse input raises TypeError; a row without stored entries raises ValueError; a stored zero raises IndexError if no stored value is NaN.", "quantifier": "all sparse matrices of each kind, labels, lists of k, random draws", "why_tests_cant": "All matrices of each kind.", "anchors": ["hub_toolbox/knn_classification.py:score"]}
{"id": "C111", "title": "An analysis reports what the individual functions return; DEFECT: never for vectors of up to 12 objects", "statement": "Each experiment of an analysis works on the result of the public function its name stands for, called on the stored data with that function's default parameters (k=7 for local scaling, k=10 for shared neighbours, kappa=40 for localized centering, ...). The hubness, accuracy and Goodman-Kruskal values stored for the requested k are those of hubness, score and goodman_kruskal_index on these secondary distances; nothing else is stored. Experiments that take the matrix never fail with TypeError while computing secondary distances. If vectors of at most 12 objects are given every analysis raises ValueError and performs no experiment.", "quantifier": "all analyses, names, lists of k, random draws, arithmetics", "why_tests_cant": "All experiments on all data.", "anchors": ["hub_toolbox/hubness_analysis.py:HubnessAnalysis.analyze_hubness", "hub_toolbox/hubness_analysis.py:HubnessExperiment"]}
{"id": "C112", "title": "mp_dissim computes the m_p dissimilarity", "statement": "For real data, p >= 0 (0 meaning 2) and 1 <= n_bins <= n_y (a number that C115 accepts for 'mass'), D[i,j] is the p-th power mean, over the features, of the number of objects of Y in the bins between that of x_i and that of y_j (both included), divided by n_x + n_y. The bins are n_bins intervals of equal width between the smallest and largest value ('range'), or are cut at every floor(n_y / n_bins)-th object in sorted order ('mass'); values outside belong to the outermost bins. Without Y the data are compared with themselves.", "quantifier": "all real data sets, n_bins, p, numbers of worker processes, schedules and implementations of partition", "why_tests_cant": "Exact values for all data and schedules.", "anchors": ["hub_toolbox/distances.py:mp_dissim"]}
{"id": "C113", "title": "Order and bounds of mp_dissim; DEFECT: never above n_y/(n_x+n_y)", "statement": "D is finite, at least 1/(n_x+n_y) and at most n_y/(n_x+n_y). An object of Y that lies between x and another object in every feature is not farther from x than that object. Without Y, D is symmetric in every arithmetic, no entry of a row is smaller than the diagonal entry, the diagonal is positive and all entries are at most 1/2 although the probability mass of the whole data set is 1.", "quantifier": "all real data sets (symmetry: all arithmetics), n_bins, p, schedules", "why_tests_cant": "Bounds and relations between entries for all data.", "anchors": ["hub_toolbox/distances.py:mp_dissim"]}
{"id": "C114", "title": "mp_dissim does not depend on workers or schedule", "statement": "Two calls with the same data and parameters return equal matrices or raise the same exception, whatever the numbers of worker processes and the order in which they write into the shared buffers. Every call has an outcome.", "quantifier": "all inputs, arithmetics, numbers of workers >= 1, interleavings", "why_tests_cant": "All schedules.", "anchors": ["hub_toolbox/distances.py:mp_dissim"]}
{"id": "C115", "title": "Arguments mp_dissim accepts; DEFECT: its default n_bins is refused", "statement": "n_bins=0, the default, always raises, as do negative n_bins and n_bins > n_y. With 'mass' and data without NaN the call succeeds exactly if ceil((n_y - 1) / floor(n_y / n_bins)) = n_bins and raises ValueError otherwise; n_bins = n_y always raises. Every beginning of 'mass' (also the empty string) means 'mass', every non-empty beginning of 'range' means 'range', all other strings raise.", "quantifier": "all data, n_bins, strings, arithmetics, schedules", "why_tests_cant": "All arguments.", "anchors": ["hub_toolbox/distances.py:mp_dissim"]}
{"id": "C116", "title": "Invariance of mp_dissim", "statement": "With 'mass' the result depends on each feature only through the order of its values: data sets with the same order within each feature give the same result, also in floating point and whatever partition algorithm numpy uses. With 'range' each feature may be shifted and multiplied by a positive number (exact arithmetic).", "quantifier": "all pairs of data sets with the same order ('mass'), all affine maps ('range')", "why_tests_cant": "Relation between runs on different data.", "anchors": ["hub_toolbox/distances.py:mp_dissim"]}
{"id": "C117", "title": "DEFECT: mp_dissim of a pair depends on how many other queries there are", "statement": "If x_i is queried among n_x' instead of n_x objects, with Y unchanged, its dissimilarity to every y_j is multiplied by (n_x + n_y)/(n_x' + n_y), although the mass counts only objects of Y.", "quantifier": "all real data sets, both kinds of bins", "why_tests_cant": "Relation between runs of different size.", "anchors": ["hub_toolbox/distances.py:mp_dissim"]}
{"id": "C118", "title": "sample_distance returns the distances to a sample", "statement": "A successful call returns the n x s matrix of distances from every object to the s sampled objects, and their s distinct positions in the order of the columns; 1 <= s < n. Strategies other than 'a' raise NotImplementedError. DEFECT: an integer sample size that is not a Python int, like numpy's integers, is multiplied by n and always raises.", "quantifier": "all data, labels, sample sizes, samples drawn", "why_tests_cant": "All samples.", "anchors": ["hub_toolbox/distances.py:sample_distance"]}
{"id": "C119", "title": "snn_sample does not depend on jobs or schedule", "statement": "Whatever n_jobs, the number of processors and the order in which the workers write, snn_sample has an outcome, and it is the outcome of the serial run: the same matrix or the same exception.", "quantifier": "all matrices, k, metrics, index lists, numbers of jobs, interleavings", "why_tests_cant": "All schedules.", "anchors": ["hub_toolbox/shared_neighbors.py:snn_sample"]}
{"id": "C120", "title": "snn_sample returns values in [0,1] and agrees with the full computation", "statement": "All entries lie in [0,1]; asking for a list of rows returns exactly these rows of the full result. If all objects are in the sample and the distances of a row are finite and different, snn_sample returns what shared_nearest_neighbors returns, for every k and both metrics.", "quantifier": "all matrices, k, metrics, samples, argsort and argpartition results", "why_tests_cant": "Relation between runs of two functions, for all inputs.", "anchors": ["hub_toolbox/shared_neighbors.py:snn_sample", "hub_toolbox/shared_neighbors.py:shared_nearest_neighbors"]}
{"id": "C121", "title": "DEFECT: local_scaling, nicdm and snn_sample never accept sparse matrices; train_ind cannot be omitted", "statement": "local_scaling, nicdm and the three _sample functions raise for every sparse matrix, although local_scaling announces experimental support of sparse similarities: a square one always raises IndexError there, a sparse distance matrix in nicdm too. The _sample functions raise TypeError whenever the optional train_ind is left out.", "quantifier": "all sparse matrices and all other arguments, any arithmetic", "why_tests_cant": "All inputs.", "anchors": ["hub_toolbox/local_scaling.py:local_scaling", "hub_toolbox/local_scaling.py:nicdm", "hub_toolbox/local_scaling.py:local_scaling_sample", "hub_toolbox/local_scaling.py:nicdm_sample", "hub_toolbox/shared_neighbors.py:snn_sample"]}
{"id": "C122", "title": "The confusion matrices of predict count its predictions and agree with score", "statement": "Entry (a,b) of the confusion matrix for a value of k and an output is the number of objects with the a-th distinct label and prediction b. In leave-one-out mode with positive k predict always returns, rows sum to the class sizes and the whole matrix to the number of objects. For one output and the same random choices the matrices are those of score, and score's correctness flags are those of predict's predictions.", "quantifier": "all matrices, label matrices, lists of k, metrics, permutations, argsort results", "why_tests_cant": "All inputs; relation between two functions.", "anchors": ["hub_toolbox/knn_classification.py:predict", "hub_toolbox/knn_classification.py:score"]}
{"id": "C123", "title": "DEFECT: predict takes missing sparse distances for zero distances", "statement": "predict on a sparse matrix is predict on the dense matrix with zeros in place of missing entries (with sample_idx it raises TypeError). So with metric='distance', if k or more objects have no stored distance to object i, all stored distances are positive, and the former carry the same label, that label is predicted for i, whatever the labels of the objects at the stored distances.", "quantifier": "all sparse matrices, labels, lists of k, permutations, argsort results", "why_tests_cant": "All inputs.", "anchors": ["hub_toolbox/knn_classification.py:predict"]}
{"id": "C124", "title": "Gumbel Mutual Proximity of sparse similarities: values and order", "statement": "With the Gumbel distribution, a known similarity x of objects i and j, i before j and with more than min_nnz stored values, becomes the product of the Gumbel distribution functions of i and j at x, a number in (0,1); unknown similarities become 0, and the mirrored cell is the same unless j has too few stored values. Objects with too few keep their rows; if i has too few but j has not, j's similarity to i is lost. Other self similarities are 1. The result grows strictly with x, and is NaN where an object's similarities have no spread.", "quantifier": "all sparse similarity matrices, thresholds, pairs of objects; exact arithmetic", "why_tests_cant": "All inputs.", "anchors": ["hub_toolbox/global_scaling.py:_mutual_proximity_gumbel_sparse"]}
{"id": "C125", "title": "DEFECT: Gamma Mutual Proximity is NaN for an object with a negative mean or fewer than two training objects", "statement": "mutual_proximity_gammai accepts distances whose mean to the training objects is negative, and training sets of one object, but the Gamma parameters do not exist then: every distance of such an object becomes NaN, without an exception.", "quantifier": "all distance matrices, training sets, pairs of objects; exact arithmetic", "why_tests_cant": "All inputs.", "anchors": ["hub_toolbox/global_scaling.py:mutual_proximity_gammai", "hub_toolbox/global_scaling.py:_local_gamcdf"]}
{"id": "C126", "title": "load_dexter returns the vectors that the file describes; misplaced and missing features", "statement": "For a file with up to 300 lines of pairs 'feature:value', features 1 to 20000, load_dexter returns the 300 x 20000 matrix holding for every object and feature the value given last, 0 where there is none, and its cosine distances. Files are accepted exactly if all lines after the 300th are empty, features are in -19999..20000 and values within float64; others raise IndexError or OverflowError. It makes no difference whether lines end with LF, CR LF or CR, and whether the last line ends. DEFECT: features 0 and below are stored as features 20000, 19999, ... DEFECT: an object without features has distance NaN to all others.", "quantifier": "all files in that format (any rows, features, values), all class files; the last statement in exact arithmetic", "why_tests_cant": "All files.", "anchors": ["hub_toolbox/io.py:load_dexter", "hub_toolbox/distances.py:cosine_distance"]}
{"id": "C127", "title": "FreeMemLinux reports numbers by line position; DEFECT: available memory counted as buffers", "statement": "total, used, used_real, user_free, buffers, cached and swap values are the stated sums of the numbers in lines 1-4, 15 and 16 of /proc/meminfo, in the unit asked for, whatever the lines are called, and shared always equals used. Fewer than 21 lines raise IndexError, '%' of no memory ZeroDivisionError, unknown units an exception. DEFECT: where the third line is MemAvailable, it is reported as buffers and added to the free memory, which then exceeds the total on machines with more than half of the memory free.", "quantifier": "all files in the format of /proc/meminfo, all units", "why_tests_cant": "All contents of the file.", "anchors": ["hub_toolbox/io.py:FreeMemLinux"]}
{"id": "C128", "title": "matrix_split computes the exact batch sizes in floating point; DEFECT: batches larger than the memory", "statement": "matrix_split, as computed in float64, returns rows per batch = floor(free/(cols*elem_size*nr_matrices)) and the number of batches = rows divided by that, rounded up, without any rounding error; so all rows are covered, no batch is empty, and one batch of all matrices fits into the memory reported as free. If not even one row fits, it raises ZeroDivisionError. DEFECT: because of C127, on current systems the batches can need more than the total memory.", "quantifier": "all contents of /proc/meminfo with up to 2^51 bytes, all matrix sizes up to 2^51 rows and 2^53 columns", "why_tests_cant": "All sizes; floating-point rounding.", "anchors": ["hub_toolbox/io.py:matrix_split", "hub_toolbox/io.py:FreeMemLinux"]}
{"id": "C129", "title": "Hubness is bounded, the bound is attained, complete neighbourhoods have none", "statement": "For m objects (m at least 2) the hubness S_k lies between -(m-2)/sqrt(m-1) and (m-2)/sqrt(m-1), so values from data sets of different sizes are on different scales. The upper bound is attained whenever one object occurs more often than all others and those occur equally often. If k is at least m-1 and the distances between different objects are finite, every object occurs m-1 times and hubness is 0.", "quantifier": "all matrices, k, metrics, shuffles, schedules; the skewness itself in exact arithmetic", "why_tests_cant": "All sizes and matrices.", "anchors": ["hub_toolbox/hubness.py:hubness"]}
{"id": "C130", "title": "DEFECT: k_skewness_truncnorm_ cannot tell hubs from antihubs", "statement": "Class Hubness offers the third moment of a truncated normal distribution as a corrected hubness measure. It is a function of the mean and the spread of the k-occurrence alone: reflecting the occurrences at their mean, which turns hubs into antihubs and changes the sign of k_skewness_, leaves it unchanged. It is positive whenever the occurrences are not all equal, also for negative skewness.", "quantifier": "all k-occurrence histograms; exact arithmetic; the first statement for any implementation of the moment", "why_tests_cant": "All histograms.", "anchors": ["hub_toolbox/hubness.py:Hubness._skewness_truncnorm"]}
{"id": "C131", "title": "Renaming the objects renames the hubness result", "statement": "If the objects of a square distance or similarity matrix are put in another order, hubness returns the same nearest neighbours in the same order of rank under their new names, the same k-occurrence for every object and the same S_k, for any partition implementation, shuffle and random draws, provided no object has two equally near candidates and each has at least min(k, n-1) of them.", "quantifier": "all square matrices without ties, all permutations, k, metrics, shuffles", "why_tests_cant": "All matrices and permutations.", "anchors": ["hub_toolbox/hubness.py:hubness"]}
{"id": "C132", "title": "Renaming the objects renames secondary distances and keeps the Goodman-Kruskal index", "statement": "If the objects of a symmetric matrix are put in another order, mutual_proximity_empiric, local_scaling and nicdm (of finite distances) and shared_nearest_neighbors (finite values) return the same values in the new order, and goodman_kruskal_index with reordered labels returns the same index, whatever sorting or partition implementation and number of workers either call uses (shared neighbours without ties). Without symmetry this fails: Mutual Proximity takes the distance of two objects from the row of the object with the larger number.", "quantifier": "all symmetric matrices, all permutations, k, metrics, labels, workers", "why_tests_cant": "All matrices and permutations.", "anchors": ["hub_toolbox/global_scaling.py:mutual_proximity_empiric", "hub_toolbox/local_scaling.py:local_scaling", "hub_toolbox/local_scaling.py:nicdm", "hub_toolbox/shared_neighbors.py:shared_nearest_neighbors", "hub_toolbox/goodman_kruskal.py:goodman_kruskal_index"]}
{"id": "C133", "title": "The printed report shows exactly what was computed, with the parameters that were used", "statement": "For every completed experiment the report printed by analyze_hubness and print_analysis_report shows, under a title that identifies the method, every requested k once in ascending order with the stored hubness, antihub, maximal hub and k-NN values, the Goodman-Kruskal index if classes were given, the embedding dimension and the intrinsic dimension rounded to the nearest integer (ties to even). The parameter values it prints are those the secondary distances were computed with. A call that ends normally prints the headline once, one report per requested experiment in order, and the closing lines; print_analysis_report() then repeats the same reports. If no vectors are given or the intrinsic dimension estimate is finite, printing changes neither the experiments kept nor the exception raised.", "quantifier": "all data, names, k lists, outcomes of the computations; all float64 values for rounding", "why_tests_cant": "All inputs and histories.", "anchors": ["hub_toolbox/hubness_analysis.py:HubnessAnalysis.print_analysis_report", "hub_toolbox/hubness_analysis.py:HubnessAnalysis.analyze_hubness"]}
{"id": "C134", "title": "DEFECT: printing the report of data with a non-finite intrinsic dimension estimate aborts the analysis", "statement": "If the intrinsic dimension estimate of the vectors is NaN or infinite, analyze_hubness with print_results=True (the default) raises ValueError or OverflowError after the first experiment; the remaining experiments are never performed, although they would be without printing, and print_analysis_report raises as soon as there is an experiment to report. A single NaN coordinate among more than 12 objects is enough, and 13 objects at equal distances give an infinite estimate.", "quantifier": "all analyses with vectors, all lists of experiments", "why_tests_cant": "All inputs and histories.", "anchors": ["hub_toolbox/hubness_analysis.py:HubnessAnalysis.print_analysis_report", "hub_toolbox/hubness_analysis.py:HubnessAnalysis.analyze_hubness", "hub_toolbox/intrinsic_dimension.py:intrinsic_dimension"]}
{"id": "C135", "title": "DEFECT: local DisSim truncates the centroids of integer vectors", "statement": "dis_sim_local called with vectors stored as integers uses, with one process, every local centroid with its coordinates truncated towards zero instead of the centroid itself; for 0/1 vectors a truncated centroid keeps only the features all k neighbours have. The result is the one of the same numbers stored as floats if all centroids are integral, but values and even the order of neighbours differ in general. With more than one process the call raises TypeError.", "quantifier": "all integer vectors, all k, all numbers of processes, one or two sets of vectors", "why_tests_cant": "All vectors.", "anchors": ["hub_toolbox/centering.py:dis_sim_local"]}
{"id": "C136", "title": "Neighbour based results depend only on how the objects rank each other", "statement": "If no object is equally far from two others, hubness (neighbours, occurrences and S_k), shared nearest neighbours and leave-one-out k-NN evaluation (accuracy, correctness flags, confusion matrix) give corresponding results for any two matrices in which every object ranks the others alike, whatever the values, the orientation (distances D or similarities -D), the names of the objects, the random draws and the sorting implementation.", "quantifier": "all pairs of finite matrices with equal rankings, all k, labels, random draws and sort implementations", "why_tests_cant": "All matrices, all random draws.", "anchors": ["hub_toolbox/hubness.py:hubness", "hub_toolbox/shared_neighbors.py:shared_nearest_neighbors", "hub_toolbox/knn_classification.py:score"]}
{"id": "C137", "title": "The approximate estimator answers by its last successful fit alone", "statement": "Whatever calls of fit, transform and predict an ApproximateHubnessReduction object with fixed vantage points has been through, transform and predict after a successful fit (with only transform, predict or refused data in between) give the results, or raise the errors, of one fit and one transform on a fresh object with the same data, settings and sample: same distances, same labels, sec_dist_ and sec_dist_sparse_ of the right shape and with the same entries. In particular predict does not disturb later calls, and n_samples, which Mutual Proximity without sampling overwrites, does not leak into later fits. Before the first successful fit both methods raise the not-fitted error and change nothing.", "quantifier": "all histories of calls, all data, samples, labels and settings with fixed vantage points", "why_tests_cant": "All histories.", "anchors": ["hub_toolbox/approximate.py:SuQHR.fit", "hub_toolbox/approximate.py:SuQHR.transform", "hub_toolbox/approximate.py:SuQHR.predict"]}
{"id": "C138", "title": "DEFECT: a failed refit breaks a fitted approximate estimator", "statement": "If fit raises on data that are valid as such (for instance fewer objects than n_samples) the object keeps its old model but the number of objects of the failed data. With sampling, every later transform raises ValueError if a vantage point has a number beyond that; otherwise its distances are those of the old model but sec_dist_sparse_ has the width of the failed data. With random sampling a failed fit of fewer than n_samples objects always makes all later transforms fail. Without sampling nothing changes.", "quantifier": "all histories of calls, all data, samples and settings with fixed vantage points", "why_tests_cant": "All histories and failure points.", "anchors": ["hub_toolbox/approximate.py:SuQHR.fit", "hub_toolbox/approximate.py:SuQHR.transform", "hub_toolbox/approximate.py:SuQHR._sparse_distance_matrix"]}
{"id": "C139", "title": "DEFECT: after predict the two forms of the secondary distances contradict each other", "statement": "After predict the attribute sec_dist_ holds the distances made finite and shifted to be non-negative, while sec_dist_sparse_ holds the original ones if sampling is used (without sampling both are the changed array). The two agree exactly if all distances are finite and non-negative; local DisSim violates this on ordinary data.", "quantifier": "all histories of calls, all data, samples and settings with fixed vantage points", "why_tests_cant": "All histories.", "anchors": ["hub_toolbox/approximate.py:SuQHR.predict", "hub_toolbox/approximate.py:enforce_finite_distances"]}
{"id": "C140", "title": "Local scaling of distances stays in [0,1] in float64; DEFECT: very small or very large units give NaN", "statement": "In float64, for every matrix of finite distances (sign bit clear), every admissible k, held-out set and number of workers, local scaling returns and every entry is NaN or in [0,1]. If all distances between different objects are between 2^-500 and 2^500 no entry is NaN. DEFECT: if all are below 2^-538, or all are at least 2^512, every entry between different objects is NaN, because squares and products of radii underflow to 0 or overflow; the same objects measured in another unit give ordinary values, although local scaling is scale free.", "quantifier": "all float64 distance matrices, all k, held-out sets, worker numbers and schedules, all exponential functions that map non-positive numbers into [0,1]", "why_tests_cant": "All float64 matrices; tests use distances of ordinary size.", "anchors": ["hub_toolbox/local_scaling.py:local_scaling"]}
{"id": "C141", "title": "Local scaling does not depend on power-of-two units in float64", "statement": "If all distances of a matrix are multiplied by the same power of two and stay between 2^-500 and 2^500 before and after, local scaling returns the same float64 values: no rounding error depends on the unit. This holds for any exponential function and any numbers of workers in the two calls.", "quantifier": "all float64 distance matrices in that range, all powers of two, k, held-out sets, worker numbers, schedules and partition implementations", "why_tests_cant": "All matrices and exponents.", "anchors": ["hub_toolbox/local_scaling.py:local_scaling"]}
{"id": "C142", "title": "Parametric Mutual Proximity is symmetric and in [0,1] in float64 for every input", "statement": "In float64, whatever the entries of the input are (also negative, infinite, NaN or not symmetric), a successful call of Gaussian or Gamma Mutual Proximity returns a symmetric matrix with the right self values whose entries are NaN or in [0,1]; so does the Gaussian variant for sparse similarities (values of stored and not stored cells), and all entries of the sampled Gaussian variant are NaN or in [0,1], with the self value where an object meets itself.", "quantifier": "all float64 matrices, metrics, held-out sets and samples, all summation orders, all distribution functions with values in [0,1] or NaN", "why_tests_cant": "All inputs including degenerate ones.", "anchors": ["hub_toolbox/global_scaling.py:mutual_proximity_gaussi", "hub_toolbox/global_scaling.py:mutual_proximity_gammai", "hub_toolbox/global_scaling.py:mutual_proximity_gaussi_sample"]}
{"id": "C143", "title": "Cosine distances are symmetric, zero on the diagonal and not negative in float64", "statement": "In float64, for every matrix of vectors and whatever the order of summation, cosine_distance returns a symmetric matrix with 0 on the diagonal whose entries are NaN or not negative: rounding cannot make a distance negative or tell d(x,y) from d(y,x).", "quantifier": "all float64 matrices, all summation orders", "why_tests_cant": "All matrices and roundings.", "anchors": ["hub_toolbox/distances.py:cosine_distance"]}
{"id": "C144", "title": "NICDM is never negative in float64", "statement": "In float64, for every matrix of distances (finite, infinite or NaN, sign bit clear), every k, held-out set, number of workers and schedule, the entries of a NICDM result are NaN or not negative.", "quantifier": "all float64 distance matrices, all k, held-out sets, worker numbers and schedules, all summation orders", "why_tests_cant": "All matrices.", "anchors": ["hub_toolbox/local_scaling.py:nicdm"]}
{"id": "C145", "title": "No call changes an array of the caller", "statement": "Whatever arrays the caller holds and whichever of them they pass, a call of a secondary distance function (shared neighbours, local scaling, NICDM, Mutual Proximity: empiric, Gaussian, Gamma, simhubIN, and the sampled variants), of hubness, of the k-NN score or of intrinsic_dimension leaves every one of those arrays as it was, whether the call returns or raises. An array that is returned is a new one, and its contents depend only on the contents of the argument.", "quantifier": "all sets of (dense) arrays in memory, all choices of the argument, all parameters with n_jobs = 1, all random permutations, all results of numpy's sorting and partitioning routines", "why_tests_cant": "All inputs and all exception points; a test sees only the arrays it looks at.", "anchors": ["hub_toolbox/hubness.py:hubness", "hub_toolbox/global_scaling.py:_local_gamcdf", "hub_toolbox/local_scaling.py:local_scaling", "hub_toolbox/shared_neighbors.py:shared_nearest_neighbors", "hub_toolbox/knn_classification.py:score", "hub_toolbox/intrinsic_dimension.py:intrinsic_dimension"]}
{"id": "C146", "title": "dis_sim_local leaves the vectors alone, also when both arguments are one array", "statement": "dis_sim_local(X, Y) changes neither X nor Y, even if both are the same array or Y is left out (when the code works on one copy under two names), and returns a new array with the result that the definition gives for the original vectors, although it subtracts the centroids in place.", "quantifier": "all sets of arrays in memory, all choices of X and Y among them, all k, n_jobs = 1, all results of argpartition", "why_tests_cant": "All aliasing patterns.", "anchors": ["hub_toolbox/centering.py:dis_sim_local"]}
{"id": "C147", "title": "Calls on the same arrays do not influence each other", "statement": "In any sequence of calls on arrays the caller holds, in any order and with any exceptions in between, each call gives what it would give alone on the original arrays, no later call changes an array that an earlier call returned, and no two results share memory.", "quantifier": "all finite sequences of calls, all arrays, all parameters", "why_tests_cant": "All histories.", "anchors": ["hub_toolbox/hubness.py:hubness", "hub_toolbox/global_scaling.py:mutual_proximity_gammai", "hub_toolbox/local_scaling.py:nicdm", "hub_toolbox/shared_neighbors.py:simhubIN"]}
{"id": "C148", "title": "Seeding: where random_state makes results reproducible and where it is ignored", "statement": "hubness with n_jobs=1 and a random_state returns the same neighbours and counts on every call, whatever the state of numpy's global generator, and leaves that state alone; so does the first fit of Hubness(metric='precomputed', random_state=s) on sparse distances. Without random_state, hubness with n_jobs=1 does not use the global generator either, so that np.random.seed has no effect on it: the result does not depend on its state, and with one state two calls can give different neighbours. DEFECT: on dense precomputed distances with shuffle_equal, Hubness ignores random_state: all seeds give the same result, and one seed gives different neighbours when the global generator is in different states.", "quantifier": "all generators, all states of the global generator, all seeds, matrices and parameters", "why_tests_cant": "All generator states and histories of other draws.", "anchors": ["hub_toolbox/hubness.py:hubness", "hub_toolbox/hubness.py:Hubness._k_neighbors_precomputed", "hub_toolbox/hubness.py:Hubness._k_neighbors_precomputed_sparse"]}
{"id": "C149", "title": "Forked workers shuffle alike, so that equal distances become hubs", "statement": "DEFECT: hubness with n_jobs != 1 shuffles with the global generator, of which every forked worker has an equal copy. If all distances are equal and every worker handles at most one row, k objects are neighbours of all others and all but one of the rest of none (with a stable argpartition), although shuffle_equal is meant to prevent this. For any distribution of the rows, k objects have at least m - 1 occurrences each, where m is the number of workers that handle at least t rows, for every t >= 1. And repeating the call with the same distribution of rows gives exactly the same result, because the generator of the caller does not advance.", "quantifier": "all generators and states, all sizes, all k < n, all matrices of equal finite distances, all distributions of rows to workers (with at most one row each for the first part); all matrices for the last part", "why_tests_cant": "All generator states and schedules.", "anchors": ["hub_toolbox/hubness.py:_hubness_nearest_neighbors", "hub_toolbox/hubness.py:hubness"]}
{"id": "C150", "title": "Local scaling in float64 is accurate", "statement": "If all distances between different objects are float64 numbers between 2^-500 and 2^500, local_scaling (distance metric, any n_jobs, with or without test_ind) succeeds, all its values are finite, and each differs from 1 - exp(-d^2/(r_i r_j)), computed without rounding from the input distance d and the distances r_i, r_j to the k-th nearest neighbours, by at most 2^-50 plus the absolute error of np.exp. No cancellation or overflow of an intermediate quotient can make it worse.", "quantifier": "all float64 matrices in that range, all k, test sets, numbers of workers, partition functions and exponential functions with a bounded error", "why_tests_cant": "All matrices of floating point numbers.", "anchors": ["hub_toolbox/local_scaling.py:local_scaling", "hub_toolbox/local_scaling.py:_ls_calculate_sec_dist"]}
{"id": "C151", "title": "DEFECT: for float32 distances local_scaling depends on n_jobs; a float64 copy is accurate", "statement": "On a float32 matrix local_scaling computes in float32 with one process and partly in float64 with several. If all distances between different objects are positive and at most 2^-76, one process returns NaN for every pair, several processes return 0 for every pair, whatever the distances are. If the matrix is first converted to float64, the values are right up to 2^-50 and the error of np.exp for all positive float32 distances.", "quantifier": "all float32 matrices in the stated range, all k, test sets, numbers of workers and schedules, partition functions; any np.exp that maps NaN to NaN and zero to one", "why_tests_cant": "All matrices and schedules; the tests use float64 only.", "anchors": ["hub_toolbox/local_scaling.py:local_scaling", "hub_toolbox/local_scaling.py:_ls_calculate_sec_dist", "hub_toolbox/local_scaling.py:_ls_calculate_r"]}
{"id": "C152", "title": "Matrices with an integer dtype are refused, never silently truncated; a float64 copy is right up to 2^53", "statement": "hubness, local_scaling, nicdm (also their sample variants), shared_nearest_neighbors, simhub, simhubIN, the dense empiric, Gauss and Gamma Mutual Proximity, score and predict never return a value for a non-empty matrix with an integer dtype (and, for score and predict, a non-empty test set): with valid arguments they raise OverflowError (ValueError for Gauss and Gamma Mutual Proximity), because infinity or NaN cannot be stored in an integer array. If all entries are at most 2^53 in absolute value, hubness of the matrix converted to float64 returns the k nearest neighbours by integer comparison; above 2^53 a farther object can be listed as the nearest.", "quantifier": "all integer matrices, all parameters, any continuation of the functions after the first store; all partition functions and shuffles for the float64 copy", "why_tests_cant": "All integer matrices and parameters; the tests use floats only.", "anchors": ["hub_toolbox/hubness.py:hubness", "hub_toolbox/local_scaling.py:local_scaling", "hub_toolbox/local_scaling.py:nicdm", "hub_toolbox/shared_neighbors.py:shared_nearest_neighbors", "hub_toolbox/global_scaling.py:mutual_proximity_empiric", "hub_toolbox/knn_classification.py:score"]}
{"id": "C153", "title": "Predictions of the approximate methods: weighted votes, several outputs, and the other queries of the call", "statement": "For every output, SuQHR.predict returns for each query the label with the most weight among the K nearest candidates (the smallest such label): one vote each with uniform weights, inverse distances with knn__weights='distance', where the distances are shifted by one number per call so that none is negative and candidates at distance 0 silence the others; too large a K raises ValueError. If all distances are finite and those of a query differ, its prediction does not depend on the other queries of the call for uniform weights, and for weights by distance if no secondary distance is negative. DEFECT: local centering gives negative distances. Then the query with the smallest distance of the call is classified by its nearest candidate alone, whatever K is, and the same query with the same distances can get another label when other queries are in the call. DEFECT: infinite distances count as the largest finite one of the call, so a query alone may be given the label of an object at infinite distance instead of that of a nearer one, and not in a larger call.", "quantifier": "all matrices of (secondary) distances, all K, labels, outputs, argpartition and argsort functions", "why_tests_cant": "All matrices and all sets of other queries.", "anchors": ["hub_toolbox/approximate.py:SuQHR._predict_knn", "hub_toolbox/approximate.py:SuQHR.predict", "hub_toolbox/approximate.py:enforce_finite_distances"]}
{"id": "C154", "title": "Parameters of the approximate estimator: rebuilding, set_params, and what fit does to them", "statement": "An SuQHR object can always be rebuilt from its get_params(): names in any case, 'none' and n_jobs=-1 are normalised once and for all. DEFECT: the keyword options are not among the parameters, so a copy (clone, grid search, cross validation) votes with 5 neighbours whatever knn__n_neighbors was, raises ValueError where fewer than 5 candidates exist, and can return other labels; set_params refuses these options although the constructor takes them. DEFECT: fit without sampling overwrites the parameter n_samples with the number of training objects for MP and MPG; if the object is then switched to random sampling, it refuses all data that are not larger, although the number of samples it was constructed with would do. DEFECT: set_params accepts every value, also those the constructor refuses.", "quantifier": "all constructor arguments, all sequences construct / get_params / set_params / fit as stated, all data and labels", "why_tests_cant": "All parameter combinations and all data.", "anchors": ["hub_toolbox/approximate.py:SuQHR.__init__", "hub_toolbox/approximate.py:SuQHR._predict_knn", "hub_toolbox/approximate.py:SuQHR._fit_mp", "hub_toolbox/approximate.py:SuQHR._fit_mpg"]}
{"id": "C155", "title": "DEFECT: the approximate estimator may share its training data with the caller", "statement": "If the caller writes to the arrays passed to SuQHR.fit afterwards, then: with random or kmeans++ sampling, or data whose dtype is not float32, transform answers as if nothing had been written. Without sampling, float32 data are shared: with no hubness reduction and with MP, transform answers as if the object had been fitted to the present contents (and raises ValueError if these are not finite); LS, NICDM, MPG and DSL combine distances to the present contents with the radii, moments or centroids of the old ones, so that the answer can belong to neither. predict votes with the present labels if these are int32 and nothing was sampled, with those at the time of fit otherwise. All this holds after any sequence of transforms, predictions and writes. (scikit-learn 0.21 or later, which ignores stored norms of float32 rows.)", "quantifier": "all data, labels, parameters, all sequences of transform, predict and assignments after a successful fit; fixed vantage points", "why_tests_cant": "All histories of calls and assignments.", "anchors": ["hub_toolbox/approximate.py:SuQHR.fit", "hub_toolbox/approximate.py:SuQHR.transform", "hub_toolbox/approximate.py:SuQHR.predict"]}
{"id": "C156", "title": "The Hubness object over several fits: measures are current, k_neighbors_ may be stale, the generator goes on", "statement": "Whatever happened to a Hubness object before, after a successful fit_transform its indices (skewness, Gini, Robin Hood, Atkinson, hubs, antihubs and their occurrence, groupie ratio) are those of this fit, also after any later assignments to parameters and failed fits of data with at least one indexed object. DEFECT: k_neighbors_ is that of the last successful fit with return_k_neighbors=True, so it can belong to other data than the indices. A fit of an empty matrix raises ZeroDivisionError after it has overwritten the distribution indices but not the hubs. With a random_state number, the fits of one object to two sparse distance matrices find the same neighbours as one fit to the stacked matrices, whatever uses the global generator in between: a second fit of the same matrix can find other neighbours than the first.", "quantifier": "all data, parameters, generators, all sequences of fits (successful or not), assignments to parameters and uses of the global generator", "why_tests_cant": "All histories of the object.", "anchors": ["hub_toolbox/hubness.py:Hubness.fit_transform", "hub_toolbox/hubness.py:Hubness.__init__", "hub_toolbox/hubness.py:Hubness._k_neighbors_precomputed_sparse"]}
{"id": "C157", "title": "DEFECT: parallel results are right only if worker processes are started by fork", "statement": "With n_jobs > 1 the result arrays are shared with worker processes that are forked, so that every outcome is one covered by the properties on n_jobs (equal to the result of one process). With the other start methods of multiprocessing (spawn: the default on Windows and macOS; forkserver: the default on Linux since Python 3.14) workers get copies, and what they compute is lost without any error: hubness and the class Hubness report object 0 as the nearest neighbour of all objects, N_k = (n k, 0, ..., 0); local_scaling, nicdm, shared_nearest_neighbors and approximate Mutual Proximity return 0 for all pairs; simhubIN returns distance 1 for all pairs; localized_centering returns plain cosine similarities; dis_sim_local returns -2<x,y>. None of this depends on the distances. Only the sparse empiric Mutual Proximity, which passes the shared array itself to its workers, is right for every start method.", "quantifier": "all input matrices, all parameters, all numbers of workers, all schedules of workers, the three start methods", "why_tests_cant": "All inputs, schedules and platforms; tests run on one platform.", "anchors": ["hub_toolbox/hubness.py:hubness", "hub_toolbox/local_scaling.py:local_scaling", "hub_toolbox/shared_neighbors.py:shared_nearest_neighbors", "hub_toolbox/shared_neighbors.py:simhubIN", "hub_toolbox/centering.py:localized_centering", "hub_toolbox/centering.py:dis_sim_local", "hub_toolbox/approximate.py:SuQHR._transform_mp"]}
{"id": "C158", "title": "The accuracy of NICDM in float64", "statement": "NICDM computed in double precision is close to its formula g d_ij / sqrt(r_i r_j), where r_i is the mean distance of i to its k nearest training objects and g the geometric mean of all r_i: if all distances between different objects are between 2^-300 and 2^300, the relative error of every entry is at most 750 eps, where eps (between 2^-53 and 2^-20) bounds the relative errors of np.sum, np.log and np.exp on the numbers in question. If np.sum adds from left to right and np.log and np.exp are correctly rounded, the error is at most 750 n 2^-52. In particular nothing overflows, underflows or becomes NaN, and the diagonal is 0.", "quantifier": "all square float64 distance matrices with entries in that range, all n up to 2^53 (2^30 for the second part), all k smaller than the number of training objects, all test sets, all job counts and schedules, all functions np.sum, np.log, np.exp within the bounds", "why_tests_cant": "Every rounding error of every intermediate result for all matrices.", "anchors": ["hub_toolbox/local_scaling.py:nicdm", "hub_toolbox/local_scaling.py:_local_geomean"]}
{"id": "C159", "title": "The accuracy of the hubness value in float64", "statement": "The hubness value S_k that is returned in double precision is the exact skewness of the k-occurrences up to a relative error of 10 eps, where eps bounds the relative error of the power 1.5, whichever order np.sum adds in, if the number n of objects and k satisfy 2 n^3 k < 2^53 (for k = 10: n up to 76000); the intermediate sums are then exact. In particular it is 0 exactly if the occurrences are not skewed at all, its sign is never wrong, and no call returns NaN. The same holds for the attribute k_skewness_ of the class Hubness when there are as many queries as training objects.", "quantifier": "all square matrices of that size, all metrics, k, shuffles, job counts and schedules, all orders of summation, all thresholds scipy uses for a vanishing variance", "why_tests_cant": "Every rounding error for all neighbour graphs.", "anchors": ["hub_toolbox/hubness.py:hubness", "hub_toolbox/hubness.py:_hubness_no_multiprocessing", "hub_toolbox/hubness.py:Hubness"]}
{"id": "C160", "title": "The accuracy of cosine distances in float64; DEFECT: small angles are lost", "statement": "cosine_distance computed in double precision differs from 1 - cos of the two vectors by at most 24 eps, if no vector is 0 and all entries are 0 or of a size between 2^-140 and 2^140, where eps (between 2^-53 and 2^-20) bounds the relative error of sums; with summation from left to right in m dimensions the error is at most 24 m 2^-52. So objects are ranked right as neighbours unless their cosines differ by 48 eps or less. The bound is absolute, not relative: two vectors with different directions can get distance 0, as if they were duplicates.", "quantifier": "all float64 matrices with entries of that size, all dimensions up to 2^53 (2^30 for the second bound), all summation functions within the error bound", "why_tests_cant": "Every rounding error for all vectors.", "anchors": ["hub_toolbox/distances.py:cosine_distance"]}
{"id": "C161", "title": "Killed worker processes never corrupt a result; DEFECT: the call then never returns", "statement": "If worker processes are killed while a parallel call runs (n_jobs > 1; for example because memory runs out), at any moment and any number of them, the call never returns a wrong or incomplete result: whatever hubness, the class Hubness, local_scaling, nicdm, shared_nearest_neighbors, simhubIN, localized_centering, dis_sim_local, the approximate and the sparse empiric Mutual Proximity return is a result without killed workers (the result of one job). DEFECT: after a worker was killed while it worked on a task, no continuation returns or raises because of it: the lost task is waited for for ever. A worker killed while it waits for a task does no harm, unless it held the lock of a queue. Without such deaths a pool of at least one worker always ends: it can always go on until all results are there and cannot go on for ever.", "quantifier": "all input matrices and parameters, all numbers of workers, all chunkings of the tasks, all schedules, all moments at which workers are killed, any number of killed workers", "why_tests_cant": "All crash points in all schedules; hanging for ever cannot be observed.", "anchors": ["hub_toolbox/hubness.py:hubness", "hub_toolbox/hubness.py:Hubness._k_neighbors", "hub_toolbox/local_scaling.py:local_scaling", "hub_toolbox/local_scaling.py:nicdm", "hub_toolbox/shared_neighbors.py:shared_nearest_neighbors", "hub_toolbox/shared_neighbors.py:simhubIN", "hub_toolbox/centering.py:localized_centering", "hub_toolbox/centering.py:dis_sim_local", "hub_toolbox/global_scaling.py:_mutual_proximity_empiric_sparse", "hub_toolbox/approximate.py:SuQHR._transform_mp"]}
{"id": "C162", "title": "DEFECT: boolean masks and negative indices of held-out objects are misread", "statement": "The objects to hold out in local_scaling, nicdm, centering and weighted_centering (whose parameter is called test_set_mask) and in Gaussian and Gamma Mutual Proximity must be given as non-negative positions, in any order and with repetitions; values outside 0..n-1 are ignored. A boolean mask is not refused but read as the numbers 0 and 1: every mask that marks some objects and leaves some unmarked gives the result for holding out objects 0 and 1, whichever objects it marks; a mask that marks nothing holds out object 0, a mask that marks all holds out object 1 only. A negative index, which counts from the end elsewhere in Python, holds out nothing. So for every mask that does not mark exactly objects 0 and 1 and for every negative index -n..-1 there is data that centering centers at the wrong mean.", "quantifier": "all input matrices, parameters, job counts and schedules, all masks and index arrays of any length", "why_tests_cant": "All masks and index arrays; the tests pass positions.", "anchors": ["hub_toolbox/local_scaling.py:local_scaling", "hub_toolbox/local_scaling.py:nicdm", "hub_toolbox/centering.py:centering", "hub_toolbox/centering.py:weighted_centering", "hub_toolbox/global_scaling.py:mutual_proximity_gaussi", "hub_toolbox/global_scaling.py:mutual_proximity_gammai"]}
{"id": "C163", "title": "Secondary distances can be computed from secondary distances in float64; DEFECT: local scaling of shared-neighbour distances gives NaN", "statement": "Any number of calls of mutual_proximity_empiric, shared_nearest_neighbors, local_scaling and nicdm, each on the result of the one before, with any numbers of jobs, ends without an exception and with a proper distance matrix: square, finite, not negative, symmetric, zero diagonal. This holds for every square matrix of float64 numbers to start from, when every local_scaling and nicdm comes after a mutual_proximity_empiric with at most two nicdm in between, or when the first matrix holds distances between 2^-53 and 1. DEFECT: shared_nearest_neighbors followed by local_scaling(k) gives NaN between all objects of any group of more than k objects that have the same nearest neighbours.", "quantifier": "all numbers of objects up to 2^53, all square float64 matrices, all sequences of calls of any length that meet the rule, all neighbourhood sizes below the number of objects, all numbers of jobs and schedules, all np.exp, np.log and sums with the stated accuracy, all results np.partition and np.argpartition may give", "why_tests_cant": "Each call's hypotheses on its input (finite, positive, neither too large nor too small) must follow from what the call before guarantees for every input; tests run single calls on a few data sets, where products neither underflow nor vanish", "anchors": ["hub_toolbox/global_scaling.py:mutual_proximity_empiric", "hub_toolbox/shared_neighbors.py:shared_nearest_neighbors", "hub_toolbox/local_scaling.py:local_scaling", "hub_toolbox/local_scaling.py:nicdm"]}
{"id": "C164", "title": "The Robin Hood and Atkinson indices are accurate in float64", "statement": "For all occurrence counts with a positive sum below 2^52: the Robin Hood index that class Hubness reports is a finite number that differs from half the mean absolute deviation divided by the mean by at most 6 eps, and the Atkinson index (parameter 3/4) differs from one minus the mean of order 1/4 divided by the mean by at most 36 eps, where eps bounds the relative errors of np.sum and np.power. If there are as many queries as indexed objects (the mean is then k), the Robin Hood index is the correctly rounded value, whatever the order of summation; it is at least 0, below 1, and 0 exactly if all objects occur equally often.", "quantifier": "all lists of non-negative occurrence counts (sum below 2^52, any length up to 2^53), all summation orders, all power functions with the stated error, all data, metrics, neighbourhood sizes and job counts of class Hubness", "why_tests_cant": "All occurrence vectors and all summation orders; the tests compare a few values on example data", "anchors": ["hub_toolbox/hubness.py:Hubness._hood_index", "hub_toolbox/hubness.py:Hubness._atkinson_index", "hub_toolbox/hubness.py:Hubness.fit_transform"]}
{"id": "C165", "title": "Which secondary distances obey the triangle inequality", "statement": "Shared-neighbour distances obey the triangle inequality up to 3*2^-52, and exactly if the number of neighbours is a power of two; otherwise rounding can break it. Empirical mutual proximity turns every ultrametric into an ultrametric, with no rounding error. Mutual proximity, local scaling, NICDM (each applied to a metric) and the cosine distance do not obey the triangle inequality in general.", "quantifier": "all square distance matrices (any float64 values, NaN and infinities included) and neighbourhood sizes for shared neighbours; all ultrametric float64 matrices for mutual proximity; one metric each for the counterexamples", "why_tests_cant": "All matrices and all triples of objects; tests look at example matrices and the violations by rounding are in the last bit", "anchors": ["hub_toolbox/shared_neighbors.py:shared_nearest_neighbors", "hub_toolbox/global_scaling.py:mutual_proximity_empiric", "hub_toolbox/local_scaling.py:local_scaling", "hub_toolbox/local_scaling.py:nicdm", "hub_toolbox/distances.py:cosine_distance"]}
{"id": "C166", "title": "Centring vectors is accurate in float64", "statement": "For float64 data of absolute value at most 2^300: every centred entry differs from x - mean by at most one rounding of that difference plus 3 eps times the mean absolute value of the column (plus 2^-999), where eps bounds the relative error of np.sum; the column means of the centred training objects are at most 5 eps times the mean absolute value (plus 2^-999). Centring a second time changes an entry (for data of absolute value at most 2^297) by at most two roundings of x - mean plus 12 eps times the mean absolute value (plus 5 * 2^-1000).", "quantifier": "all float64 matrices of moderate entries with any numbers of rows (up to 2^53) and columns, all held-out sets that leave a training object, all summation orders with the stated error", "why_tests_cant": "All matrices and summation orders; cancellation makes the error depend on the data, tests use small examples", "anchors": ["hub_toolbox/centering.py:centering"]}
{"id": "C167", "title": "The hubness function and the Hubness class agree", "statement": "If all distances of a square matrix are finite, every object is strictly nearer to itself than to the others and no two others are equally far from it, then for every 1 <= k < n hubness() (one process or many) and Hubness(metric='precomputed') with has_self_distances=True both succeed and give the same neighbour lists (the k nearest others, nearest first) and the same occurrence counts, whatever the shuffles, the partition order, batch size and number of workers. hubness_from_vectors() and Hubness on vectors give what hubness() gives on the matrix of their distances. Where they part: for k >= n the function takes n - 1 neighbours and the class raises ValueError; without has_self_distances the class lists every object as its own first neighbour, followed by what the function finds for k - 1; on a rectangular matrix without ties they agree if no distance is zero, but a training object at distance zero is never listed by the function and listed first by the class.", "quantifier": "all float64 distance matrices with the stated order, all k, all shuffles, all partitions within numpy's contract, all batch sizes and schedules", "why_tests_cant": "All matrices, shuffles and schedules; tests look at example data", "anchors": ["hub_toolbox/hubness.py:hubness", "hub_toolbox/hubness.py:_hubness_no_multiprocessing", "hub_toolbox/hubness.py:hubness_from_vectors", "hub_toolbox/hubness.py:Hubness.fit_transform", "hub_toolbox/hubness.py:Hubness._k_neighbors_precomputed"]}
{"id": "C168", "title": "Empiric Mutual Proximity on sparse matrices with unordered column indices", "statement": "mutual_proximity_empiric on a csr similarity matrix: if the column indices of every row are stored in ascending order, the call leaves the matrix as it was and its outcome is the one the other properties describe. DEFECT: a csr matrix need not have ordered indices (products of sparse matrices do not). Then after every returning call the column indices of the caller's matrix have been sorted while its values stayed in place: an unordered row with pairwise different values now states other similarities. Rows that keep their original values (at most min_nnz entries) are taken from the corrupted matrix, and since the cell to write is looked up by binary search in unordered indices, similarities get lost. A call that raises leaves the matrix alone.", "quantifier": "all csr matrices without duplicate indices in a row, all min_nnz and test sets, all schedules of the workers, every binary search that is right on ordered lists", "why_tests_cant": "All index orders; the tests build their csr matrices from dense ones, whose indices are ordered", "anchors": ["hub_toolbox/global_scaling.py:mutual_proximity_empiric", "hub_toolbox/global_scaling.py:_mpes_sec_dist", "hub_toolbox/global_scaling.py:_mutual_proximity_empiric_sparse"]}
{"id": "C169", "title": "Mutual Proximity never changes a sparse matrix of its caller", "statement": "A call of mutual_proximity_gaussi or mutual_proximity_gammai on a csr matrix leaves every matrix that existed before the call as it was, whether it returns or raises, and a returned matrix is a new one with exactly the entries the other properties speak of; so do any number of tasks of mutual_proximity_empiric carried out by a worker on the matrix (computing the values; for its assembly see C168). The Gaussian variant squares the values of its training rows in place without a copy: this is harmless only because slicing a csr matrix copies; if a slice were a view, as it is for numpy arrays, the caller's similarities would be squared.", "quantifier": "all contents of memory, all sparse matrices and test sets, all task sequences", "why_tests_cant": "All matrices and memory contents; a test compares one matrix before and after", "anchors": ["hub_toolbox/global_scaling.py:mutual_proximity_gaussi", "hub_toolbox/global_scaling.py:_mutual_proximity_gaussi_sparse", "hub_toolbox/global_scaling.py:_mutual_proximity_gammai_sparse", "hub_toolbox/global_scaling.py:_mpes_sec_dist"]}
{"id": "C170", "title": "mp_dissim from several threads", "statement": "A call of mp_dissim that no other call of the same process overlaps returns what it would return as the first call of the process, whatever calls came before it and however they ended. Calls that do overlap (threads) share two module-level names. If all of them make their bins from the same data in the same way, with bins of equal width (or bins of equal mass when the equal steps through the sorted data reach the last object by themselves), every call still returns its own result under every schedule. Under any schedule of any calls a returned matrix has the right shape and an exception is an AssertionError, ValueError, ZeroDivisionError or IndexError. DEFECT: for any two calls with other data and equally many features and bins there is a schedule in which both return and the first one counts the data masses in the other call's data (with one bin every entry is wrong if the data sets differ in size); and two calls with the same data and bins of equal mass whose last position has to be appended may both raise ValueError although each of them would return a result alone.", "quantifier": "all numbers of calls, all arguments, all interleavings of the steps of the calls, all moments at which worker processes are forked, all distributions of tasks over workers, all earlier histories", "why_tests_cant": "All schedules of threads and forks; tests make one call at a time", "anchors": ["hub_toolbox/distances.py:mp_dissim", "hub_toolbox/distances.py:_mp_find_bin_edges", "hub_toolbox/distances.py:_mp_calc_histograms", "hub_toolbox/distances.py:_mp_create_r_bins", "hub_toolbox/distances.py:_mp_estimate_r"]}
{"id": "C171", "title": "Sparse Gamma Mutual Proximity stores NaN for objects no Gamma distribution fits", "statement": "DEFECT (no warning, no exception): if the known similarities of an object to others are fewer than two, all equal or negative on average, then every value mutual_proximity_gammai of a csr matrix computes between this object and any other one is NaN and is stored as such, also between objects without a stored similarity: the result has more stored entries than the input. These are the only NaN: between two objects that have at least two known similarities, not all equal and of positive mean, the value is a number. In particular, all computed values of an unweighted graph (one and the same similarity wherever there is one) are NaN.", "quantifier": "all sparse similarity matrices, thresholds, pairs of objects, special functions that return NaN for NaN, roundings that keep NaN", "why_tests_cant": "Infinitely many matrices; the tests use random similarities without isolated objects.", "anchors": ["hub_toolbox/global_scaling.py:_mutual_proximity_gammai_sparse", "hub_toolbox/global_scaling.py:_local_gamcdf"]}
{"id": "C172", "title": "DEFECT: mp_dissim works only if worker processes are started by fork", "statement": "With forked workers mp_dissim has exactly the outcomes the properties on mp_dissim speak of. With the other start methods of multiprocessing (spawn: the default on Windows and macOS; forkserver: the default on Linux since Python 3.14) no call ever returns a result, with any number of jobs including 1: every call on data with at least one feature raises an exception, and whenever forked workers can return a result the exception is a NameError, because the workers read module-level names that only the calling process has set.", "quantifier": "all data, all parameters, all numbers of workers, all schedules, the three start methods", "why_tests_cant": "All inputs, schedules and platforms; tests run on one platform.", "anchors": ["hub_toolbox/distances.py:mp_dissim", "hub_toolbox/distances.py:_mp_find_bin_edges", "hub_toolbox/distances.py:_mp_create_r_bins", "hub_toolbox/distances.py:_mp_estimate_r"]}
{"id": "C173", "title": "Random numbers in hubness; DEFECT: with worker processes the rows are shuffled by the same permutations", "statement": "hubness shuffles every row of distances so that ties are broken at random. With one process and random_state=s, row i is shuffled by the i-th permutation of a generator seeded with s, so the result is a function of the arguments. DEFECT: with n_jobs > 1 every worker process inherits the same state of numpy's global generator, and the permutation of a row depends only on how many rows its worker had taken before: rows at the same turn of different workers are shuffled alike. So two queries with the same distances to other objects (n_jobs > 1, n x m matrix) at the same turn get the same neighbours. If there are as many workers as queries and each takes one, and all queries have the same distances (for example all equal), then the same k objects are the neighbours of all queries: k objects occur n times each and all others never, the high hubness that the shuffle is meant to avoid. The result depends on the schedule even if the state of the generator is the same. The generators here are advanced row by row, in the order in which the rows are handed out; this is shown to give exactly the runs that C148 (one process) and C149 (workers) speak of.", "quantifier": "all float64 matrices, all generators of permutations and their states, all numbers of workers, all distributions of the rows over workers, all results np.argpartition may give", "why_tests_cant": "All generators, seeds and schedules; a test sees one schedule, and results without ties do not depend on it.", "anchors": ["hub_toolbox/hubness.py:hubness", "hub_toolbox/hubness.py:_hubness_nearest_neighbors", "hub_toolbox/hubness.py:_hubness_no_multiprocessing"]}
{"id": "C174", "title": "Random numbers in score and r_precision", "statement": "score (dense) and r_precision shuffle with numpy's global generator. For every state of the generator and every distribution of the work over forked workers, a call is one of the runs with arbitrary permutations that C20-C24 and C100-C105 speak of (for score: if no test index is repeated). r_precision hands out objects in chunks of 100: up to 100 objects are all handled by one worker, so that the result is a function of the arguments and the state of the generator (np.random.seed), whatever n_jobs and the schedule. DEFECT: with more objects every worker starts with the same copy of the generator: if all objects have equally many stored finite non-zero similarities (at least 2) and a mate, object i is shuffled by the permutation whose number is the number of objects its worker had before, so objects of different workers are shuffled alike, and two objects with equal label and equal similarities then get the same precision and neighbour labels, ties included. And the result depends on the schedule even if the generator is seeded.", "quantifier": "all generators of permutations and states, all matrices, labels, parameters, all numbers of workers and distributions of chunks", "why_tests_cant": "All generators, states and schedules; tests use small matrices (one chunk) without ties.", "anchors": ["hub_toolbox/knn_classification.py:score", "hub_toolbox/knn_classification.py:r_precision", "hub_toolbox/knn_classification.py:_r_prec_worker"]}
{"id": "C175", "title": "Stored NaN values and zeros in r_precision; DEFECT: similarities are attributed to the wrong object", "statement": "r_precision drops stored NaN values and explicitly stored zeros at different places. For matrices of matching size in which every object that shares its label has a stored value, the call raises IndexError exactly if such an object has a stored value that is not NaN and whose rank among the stored entries of the row is at least the number of stored non-zero entries. Otherwise it returns, and the precision of object i with R mates is the share of the mates among R objects chosen as follows: the similarities that are not NaN are ranked; without NaN the first R + 1 of them are the largest, with q <= R NaN only the first R + 1 - q are sure to be; the first is skipped; and a similarity at rank r among the stored entries is taken for the r-th non-zero entry. Without stored zeros every similarity is taken for its own object. DEFECT: with a stored zero and a NaN in a row, the most similar object is mistaken for another, even for the one whose similarity is NaN. DEFECT: with a single NaN in a row and no zero, R nearest neighbours need not be the most similar ones: np.argpartition may leave a less similar object there.", "quantifier": "all float64 sparse matrices, labels, permutations, all results np.argpartition may give", "why_tests_cant": "All patterns of stored values; tests store neither NaN nor zeros.", "anchors": ["hub_toolbox/knn_classification.py:r_precision", "hub_toolbox/knn_classification.py:_r_prec_worker"]}
{"id": "C176", "title": "Stored NaN values and zeros in score (sparse); DEFECT: similarities are attributed to the wrong object", "statement": "score without test_set_ind on a sparse matrix of matching size without empty rows and with a valid metric raises IndexError exactly if some row has a stored value that is not NaN and whose rank among the stored entries is at least the number of stored non-zero entries. Otherwise it returns consistent tables, and for every object there is one ranking of its stored values other than NaN, whose first k + 1 - q entries are sure to be the largest for each k (q <= k the number of NaN in the row) and whose first entry is skipped; each similarity is taken for the object at the same rank among the non-zero entries; without any further entry the object is 'unknown', otherwise its predicted label is the label of such an object; and if for all k so far one of the first k of these objects has a finite similarity, it is elected by those with finite similarity. DEFECT: with a stored zero and a NaN in a row the label of a wrong object decides. DEFECT: with a single NaN and no zero the result depends on entries np.argpartition leaves in any order.", "quantifier": "all float64 sparse matrices, labels, lists of k, metrics, permutations, all results np.argpartition may give", "why_tests_cant": "All patterns of stored values; tests store neither NaN nor zeros.", "anchors": ["hub_toolbox/knn_classification.py:score"]}
{"id": "C177", "title": "The accuracy value of score in float64: error bound, and comparisons are exact", "statement": "For up to 2^50 evaluated objects the accuracy that score returns (leave-one-out, to a sample, for test objects, and for sparse matrices it accepts) is finite and differs from (correct objects)/(objects) by at most 2^-52 per correct object; so it exceeds 1 (C21) by at most n * 2^-52. Comparing the accuracies of two leave-one-out evaluations of n objects compares the numbers of correct objects: one is smaller exactly if fewer objects were correct, and they are equal, bit for bit, exactly if the numbers are equal.", "quantifier": "all float64 matrices with up to 2^50 rows, labels, lists of k, metrics, permutations, all results np.argsort and np.argpartition may give", "why_tests_cant": "All numbers of objects and of correct objects; tests compare a few values with a tolerance.", "anchors": ["hub_toolbox/knn_classification.py:score"]}
{"id": "C178", "title": "Local scaling and NICDM to a sample in float64: error bounds, and the misplaced self cells", "statement": "For distances to a sample between 2^-500 and 2^500 every value local_scaling returns is finite, and it differs from 1 - exp(-d^2/(r_i r_j)) by at most eps + 2^-50, where eps bounds the error of np.exp and the r are the k-th smallest distances to other objects of the sample; with test_ind the self cells are 0. For distances between 2^-300 and 2^300 nicdm's values have relative error at most 750 eps, with the mean of the k smallest distances and the geometric mean over all objects. Without test_ind (DEFECT, C16) the cells (j, j) are 0 even if object j is not the j-th sample, and the distance of a sample to itself in another column is within eps + 2^-50 of 1 (local scaling), +infinity (NICDM).", "quantifier": "all float64 matrices with entries in the range outside the self cells, samples, neighbourhood sizes, test_ind, all results np.partition may give, every exp, log and sum of the given accuracy", "why_tests_cant": "Holds for every rounding of every intermediate value; tests compare a few matrices with a tolerance.", "anchors": ["hub_toolbox/local_scaling.py:local_scaling", "hub_toolbox/local_scaling.py:nicdm"]}
{"id": "C179", "title": "Empiric Mutual Proximity and shared neighbours in float64: error bound, and comparisons are exact", "statement": "For up to 2^50 objects (sampled objects, neighbours) every value of empiric Mutual Proximity (full, to a sample) and of shared nearest neighbours (full, to a sample; the cells treated as self distances, see C16, aside) is finite and within 2^-52 of the share of objects it stands for. Comparing two values of one result compares the numbers of objects: a distance is smaller exactly if more third objects are farther from both (more neighbours are common), and two values are equal, bit for bit, exactly if the numbers are equal. So rounding neither creates nor breaks a tie in secondary distances.", "quantifier": "all float64 matrices (similarities below +infinity) with up to 2^50 rows, both metrics, samples, test_ind, neighbourhood sizes, all results np.argpartition may give, all pairs of values", "why_tests_cant": "All pairs of counts and all n; the claim fails without a bound on n and needs every rounding to be considered.", "anchors": ["hub_toolbox/global_scaling.py:mutual_proximity_empiric", "hub_toolbox/shared_neighbors.py:shared_nearest_neighbors", "hub_toolbox/shared_neighbors.py:snn_sample"]}
{"id": "C180", "title": "The Goodman-Kruskal index in float64 beyond 2^53 quadruples", "statement": "For up to 2^40 objects and fewer than 2^63 quadruples (not only up to 2^53, as in C17) goodman_kruskal_index returns a finite number in [-1, 1] that differs from (Q_c - Q_d)/(Q_c + Q_d) by at most 2^-50 times (number of classes + 1). For matrices without negative entries off the diagonal sparse_goodman_kruskal_index returns the same number, bit for bit, whatever the size.", "quantifier": "all symmetric float64 matrices without NaN off the diagonal with up to 2^40 rows and fewer than 2^63 quadruples, integer labels, both metrics, every stable np.argsort and every np.sort", "why_tests_cant": "20000 objects already have more than 2^53 quadruples; no test runs matrices of this size, and the claim ranges over all of them.", "anchors": ["hub_toolbox/goodman_kruskal.py:goodman_kruskal_index", "hub_toolbox/goodman_kruskal.py:sparse_goodman_kruskal_index"]}
{"id": "C181", "title": "r_precision and its worker processes: order, start methods, killed workers, end of the call", "statement": "Whatever order the workers of r_precision take their chunks and send their results in, however the processes are started and whichever of them are killed at whatever moment: a call that ends returns, or raises, what the same work does object after object (for the same random draws), every value at the position of its object. With at least one worker and no killed one the call always ends: no order of the steps blocks, and m chunks and p workers make at most 3m + p steps. After a worker was killed while it had a chunk the call does not return any more; it can only raise, and only what an object before that chunk raises.", "quantifier": "all matrices, labels, parameters and random draws, all numbers of workers and chunk sizes, all schedules, all moments at which any workers are killed", "why_tests_cant": "All schedules and crash points; that a call hangs for ever cannot be observed.", "anchors": ["hub_toolbox/knn_classification.py:r_precision", "hub_toolbox/knn_classification.py:_r_prec_worker", "hub_toolbox/knn_classification.py:_load_shared_csr"]}
{"id": "C182", "title": "mp_dissim is never corrupted by killed worker processes", "statement": "If worker processes of mp_dissim are killed, at any moment and any number of them, a call that ends still returns the m_p dissimilarities, or raises the exception, of a call with any number of workers none of which is killed. With at least one worker the call can always end. The bin edges come from Pool.map: whatever order its tasks end in, it gives the results in the order of the tasks or the exception of one of them, and after a worker was killed with a chunk it does not return any more.", "quantifier": "all matrices X and Y, p, numbers of bins, bin sizes, numbers of workers, chunk sizes, schedules, all moments at which any workers are killed", "why_tests_cant": "All schedules and crash points of four parallel phases.", "anchors": ["hub_toolbox/distances.py:mp_dissim", "hub_toolbox/distances.py:_mp_calc_histograms", "hub_toolbox/distances.py:_mp_create_r_bins", "hub_toolbox/distances.py:_mp_estimate_r", "hub_toolbox/distances.py:_mp_calc_mp_dissim"]}
{"id": "C183", "title": "The hub threshold hub_size*k of the class Hubness in float64; DEFECT: ties with decimal hub sizes", "statement": "After fit_transform every training object with at least hub_size*k occurrences is in hubs_, also with exactly as many (the documentation says more than hub_size*k). Conversely a hub has at least hub_size*k*(1 - 2^-53) occurrences, and at least hub_size*k where this product is a float64 number. If hub_size is the float64 number nearest to a number d, objects with at least d*k*(1 + 2^-53) occurrences are hubs and objects with fewer than d*k*(1 - 2^-52) are not, so that only objects with just d*k occurrences can be misplaced. DEFECT: they are: with hub_size = 1.1 and k = 50 an object with 55 occurrences is no hub, though with hub_size = 1.5 one with 75 is.", "quantifier": "all inputs that fit_transform accepts, all finite hub sizes from 2^-1022 on, up to 2^53 queries and neighbours, all numbers d", "why_tests_cant": "The rounding of hub_size*k depends on both in ways no finite set of cases shows.", "anchors": ["hub_toolbox/hubness.py:Hubness._hub_occurrence", "hub_toolbox/hubness.py:Hubness.fit_transform"]}
{"id": "C184", "title": "Renaming the classes renames the result of score; DEFECT: not with a test set", "statement": "If the class labels are replaced by others in the same order, score returns exactly the same result, whatever its other arguments. If they are replaced by any other distinct labels, leave-one-out classification (every object with a finite neighbour, k at least 1) returns the same accuracies and the same correctness flags, and the confusion matrix of the new names is the old one with its rows and columns moved to the places of the new names. With test_set_ind=[0] this fails: whatever the matrix and the labels (at least two classes), there are names under which object 0 counts as correctly classified and names under which it does not.", "quantifier": "all square matrices of float64 numbers, labels, lists of k, both kinds of metric, all renamings, all random choices", "why_tests_cant": "All renamings of the classes, with all ties of distances and votes.", "anchors": ["hub_toolbox/knn_classification.py:score"]}
{"id": "C185", "title": "DEFECT: score drops the fractions of float class labels, the Goodman-Kruskal index does not", "statement": "Class labels given as float64 numbers (HubnessAnalysis stores them so) are safe if they are whole numbers up to 2^53: score and goodman_kruskal_index then return what they return for the integers. Otherwise score rounds every label towards zero: labels with the same integer part are one class, and if all labels lie strictly between -1 and 1, every object counts as correctly classified, whatever the matrix. goodman_kruskal_index distinguishes all labels that are different numbers. So the two measures can contradict each other: there is a matrix with labels 0.25 and 0.75 for which every object is classified correctly and the Goodman-Kruskal index is -1.", "quantifier": "all square matrices of float64 numbers, all finite labels below 2^63, lists of k, both kinds of metric, all random choices", "why_tests_cant": "All labels, matrices and random choices; tests use whole numbers as labels.", "anchors": ["hub_toolbox/knn_classification.py:score", "hub_toolbox/goodman_kruskal.py:goodman_kruskal_index", "hub_toolbox/hubness_analysis.py:HubnessAnalysis.__init__"]}
{"id": "C186", "title": "Several k at once in score; DEFECTS: k=0 disturbs the others, isolated objects vote for themselves", "statement": "If every object has a finite neighbour and all k are at least 1, leave-one-out classification gives for each k of a list what a call with this k alone gives (with the same shuffling of equal distances), and all k from the number of objects on give the same. DEFECT: k=0 is accepted, and the values after it are evaluated with neighbours in random order: there are data and random choices for which k=1 alone classifies every object correctly and k=[0,1] none for k=1. DEFECT: an object all of whose distances are infinite is classified by k objects drawn from all objects, itself included: it counts as correct exactly if its label is elected among those drawn, and with k=1 there are random choices under which it is classified correctly, even if no other object has its label.", "quantifier": "all square matrices of float64 numbers, labels, lists of k, both kinds of metric, all random choices", "why_tests_cant": "All matrices, lists of k and random choices.", "anchors": ["hub_toolbox/knn_classification.py:score"]}
{"id": "C187", "title": "The F measures in float64 are accurate and rank tables correctly; DEFECT: equal quality may look different", "statement": "For confusion counts with TP+FP+FN up to 2^53, the float64 F1 score differs from the exact 2TP/(2TP+FP+FN) by at most a relative error of 2^-49. For counts up to 2^40 it is exactly 1 for a table without errors (and at least one hit) and for no other. If 2TP+FP+FN is at most 2^24 for two tables and one has the larger exact F1, its float64 score is larger. DEFECT: two tables with the same exact F1 can get different float64 scores (e.g. TP=3, FN=2 against TP=3, FP=1, FN=1), so an equality test or a ranking by F1 may see a difference that is not there. The macro average over n tables has a relative error of at most 2(n+8)*2^-53, the weighted average of at most 2(n+9)*2^-53, in whatever order the sum is taken.", "quantifier": "all confusion counts up to the bounds named, all lists of tables, all orders of summation", "why_tests_cant": "All counts up to 2^53 and all orders of summation.", "anchors": ["hub_toolbox/knn_classification.py:f1_score", "hub_toolbox/knn_classification.py:f1_macro", "hub_toolbox/knn_classification.py:f1_weighted"]}
{"id": "C188", "title": "predict treats every output on its own and follows renamed labels; DEFECT: its numbers depend on the other outputs", "statement": "predict with several outputs (target n x c, leave-one-out, k at least 1) elects for every object, k and output the same label as for this output alone or together with any other outputs, with the same random choices; and if the labels of an output are renamed (different labels stay different), the elected labels are renamed. No condition on the matrix: infinite and NaN distances are allowed. DEFECT: the numbers predict returns depend on the labels of the other outputs: adding an output with m distinct labels, all smaller than the others, adds m to every number returned.", "quantifier": "all square matrices of float64 numbers, targets with any number of outputs, lists of positive k, both kinds of metric, all random choices", "why_tests_cant": "All matrices, targets, renamings and random choices; the numbers only make sense together with the labels of all outputs.", "anchors": ["hub_toolbox/knn_classification.py:predict"]}
{"id": "C189", "title": "DEFECT: test objects named by negative numbers stay in score's training set", "statement": "score evaluates a test_set_ind with negative numbers (-1 is the last object; a number outside -n..n-1 raises IndexError), but an object named by a negative number is not taken out of the training set: the candidates are the objects below the number of tested objects whose own non-negative number is not listed, and the nearest of them vote. Naming all objects by negative numbers, in any order, therefore gives exactly the accuracies, flags and confusion matrices of leave-one-out classification, whereas naming them by 0..n-1 makes every prediction the largest label. For non-negative numbers the behaviour is that of the other properties.", "quantifier": "all square matrices of float64 numbers, labels, lists of k, both kinds of metric, all test sets of possibly negative numbers, all random choices", "why_tests_cant": "All matrices, test sets and random choices; tests use non-negative numbers.", "anchors": ["hub_toolbox/knn_classification.py:score"]}
{"id": "C190", "title": "r_precision in float64: error bounds for the values and both averages", "statement": "For a sparse similarity matrix whose diagonal comes first in every row, the value r_precision returns for an object is within one part in 2^53 of (hits / number of class mates), 0 when it has no class mates; objects with equal exact values get equal numbers, and objects with different exact values (at most 2^25 class mates) get numbers in the same order. For n objects the macro average is within 2(n+1)/2^53 (relative) of the exact mean of the exact values, and the weighted average within 2(n+2)/2^53 of (all hits / all class mates), for n up to 2^50 and any order of summation.", "quantifier": "all sparse float64 similarity matrices, labels with at least two objects sharing one, random choices, orders of summation", "why_tests_cant": "All matrices, labels and orders of summation; tests compare with a tolerance chosen for one case.", "anchors": ["hub_toolbox/knn_classification.py:r_precision", "hub_toolbox/knn_classification.py:_r_prec_worker"]}
{"id": "C191", "title": "The Gini index and the hub share of the class Hubness in float64; DEFECT: equal hub shares may look different", "statement": "While the integer sums stay below 2^63, the Gini index is within 2^-50 (relative) of the exact index, in [0,1], below 1 for up to 2^50 objects, and 0 exactly if all occurrences are equal. The hub share (slots occupied by hubs, divided by k and then by the number of queries) is within 3/2^53 (relative) of the exact share, equal to 1 exactly if hubs occupy all slots and 0 exactly if they occupy none. Different shares of two fits (up to 2^25 slots) are reported in the right order; with equally many queries equal shares are reported as equal numbers, also for different k and hub sizes. DEFECT: with different numbers of queries equal shares may be reported as different numbers: an object that is among the 3 nearest neighbours of everyone, and is the only hub, has a smaller share for 6 queries than for 7.", "quantifier": "all occurrence vectors, inputs, metrics, k, hub sizes, batch sizes, numbers of jobs and permutations of float64 data", "why_tests_cant": "All data sets; the differences are in the last bit and appear only for particular sizes.", "anchors": ["hub_toolbox/hubness.py:Hubness._gini_index", "hub_toolbox/hubness.py:Hubness._hub_occurrence", "hub_toolbox/hubness.py:Hubness.fit_transform"]}
{"id": "C192", "title": "A new object far away from everyone leaves the others as they were", "statement": "Add one object to a finite distance matrix such that everyone is farther from it than from anyone else. Then, if no row of the old matrix has ties and k is smaller than the old number of objects: hubness gives the old objects the same neighbours in the same order, the new object occurs in no neighbour list, and every old object occurs as often as before, plus once if it is one of the new object's own neighbours; shared_nearest_neighbors returns the same numbers for the old pairs. Ties allowed: local_scaling with exact arithmetic returns the same numbers for the old pairs. Empiric Mutual Proximity of a symmetric matrix does change: the new object counts as one more third object for every old pair, so 1-c/n becomes 1-(c+1)/(n+1); the order of the old pairs stays the same (up to 2^50 objects).", "quantifier": "all square distance matrices and all extensions by a remote object, all k, tie-breaking choices, worker schedules and partition algorithms", "why_tests_cant": "Relates two runs on different matrices for all matrices and all extensions.", "anchors": ["hub_toolbox/hubness.py:hubness", "hub_toolbox/local_scaling.py:local_scaling", "hub_toolbox/global_scaling.py:mutual_proximity_empiric", "hub_toolbox/shared_neighbors.py:shared_nearest_neighbors"]}
{"id": "C193", "title": "Exact duplicates; DEFECT: for shared neighbours duplicates are never at distance 0, different objects may be", "statement": "Two objects with distance 0 and the same positive finite distances to all others: in hubness each is the first neighbour of the other. In empiric Mutual Proximity of a symmetric matrix their distance is 1-(n-2)/n, which is positive and the smallest distance any two objects have, and they have equal distances to every other object. In shared_nearest_neighbors their distance is positive, at least 1-(k-1)/k for all ties, and exactly that if the distances of the row differ. DEFECT: other objects can be at distance 0: with objects at 0, 11, 5 and 5 and k=2 the two duplicates get the distance 1/2, and the two objects that are farthest apart the distance 0.", "quantifier": "all square float64 distance matrices (up to 2^50 objects) with a pair of duplicates, all k, tie-breaking choices and partition algorithms", "why_tests_cant": "All matrices and tie-breaking choices; tests use data in general position.", "anchors": ["hub_toolbox/hubness.py:hubness", "hub_toolbox/global_scaling.py:mutual_proximity_empiric", "hub_toolbox/shared_neighbors.py:shared_nearest_neighbors"]}
{"id": "C194", "title": "Separated classes get perfect results; Mutual Proximity keeps them separated; DEFECT: local scaling and NICDM do not", "statement": "Call the classes of a finite square matrix separated if everyone is closer to each member of the own class than to each member of other classes, and let every class have more than k members. Then, for distances and similarities and whatever the ties: all k neighbours in hubness belong to the own class; shared_nearest_neighbors gives objects of different classes exactly the distance 1 (similarity 0); score classifies every object correctly for all such k, with an accuracy within n/2^52 of 1. If all within-class values are closer than all between-class values, the Goodman-Kruskal index is exactly 1. Empiric Mutual Proximity of symmetric separated distances (up to 2^50 objects) is separated again, so everything above also holds after it. DEFECT: local scaling and NICDM can destroy separation: for objects at 0, 10, 11 and -12, -22 and k=1 (exact arithmetic) the nearest neighbour of the first object becomes the fourth, a member of the other class.", "quantifier": "all square float64 matrices, labels, k, tie-breaking choices, random permutations and sorting algorithms", "why_tests_cant": "All separated data sets; tests use one data set.", "anchors": ["hub_toolbox/hubness.py:hubness", "hub_toolbox/shared_neighbors.py:shared_nearest_neighbors", "hub_toolbox/knn_classification.py:score", "hub_toolbox/goodman_kruskal.py:goodman_kruskal_index", "hub_toolbox/global_scaling.py:mutual_proximity_empiric", "hub_toolbox/local_scaling.py:nicdm", "hub_toolbox/local_scaling.py:local_scaling"]}
{"id": "C195", "title": "Moving two objects closer together; DEFECT: shared neighbours can then move them apart", "statement": "Lower the distance of one pair of objects in a distance matrix and keep everything else. Hubness: if one of the two is in the neighbour list of the other, it stays there (finite distances, no third object at exactly the new distance). Empiric Mutual Proximity (symmetric float64 matrices, up to 2^50 objects) and local scaling (symmetric, positive distances, exact arithmetic): the secondary distance of the pair does not grow, the secondary distance of no other pair shrinks, and pairs of two other objects keep their secondary distance exactly. DEFECT: shared_nearest_neighbors can take a pair from distance 0 to distance 1 when its distance is lowered.", "quantifier": "all square distance matrices, pairs, new distances, k, tie-breaking choices, worker schedules and partition algorithms", "why_tests_cant": "Relates two runs on different matrices for all matrices and changes.", "anchors": ["hub_toolbox/hubness.py:hubness", "hub_toolbox/global_scaling.py:mutual_proximity_empiric", "hub_toolbox/local_scaling.py:local_scaling", "hub_toolbox/shared_neighbors.py:shared_nearest_neighbors"]}
{"id": "C196", "title": "An object that is nobody's neighbour can be left out", "statement": "Let a data set have one object that, for a given k, every other object finds farther than at least k of the rest. Running on the data with or without that object gives all other objects the same result: the same neighbour lists in hubness (which reports an occurrence count of 0 for it), the same shared_nearest_neighbors distances to the last bit, the same local scaling distances (exact arithmetic, ties allowed), and the same correct/incorrect outcome of score in leave-one-out classification, whatever the label of the object. For hubness, shared neighbours and classification the distances in a row must be finite and different from each other. The object need not be far away from everything.", "quantifier": "all square distance matrices with such an object in last place, all k, labels, random permutations, worker schedules, sorting and partition algorithms", "why_tests_cant": "Relates two runs on data sets of different size for all data sets.", "anchors": ["hub_toolbox/hubness.py:hubness", "hub_toolbox/shared_neighbors.py:shared_nearest_neighbors", "hub_toolbox/local_scaling.py:local_scaling", "hub_toolbox/knn_classification.py:score"]}
{"id": "C197", "title": "A larger neighbourhood size extends the smaller one", "statement": "For k <= k' < n on the same square matrix. Hubness (finite values, no ties, distances or similarities): the k-neighbour list of every object is the beginning of its k'-neighbour list, so that no occurrence count decreases and an antihub for k' is one for k. shared_nearest_neighbors (same conditions): two objects that have the value for no common neighbour (1 for distances, 0 for similarities) with k' have it with k. Local scaling (positive distances, ties allowed, exact arithmetic): no secondary distance grows with k.", "quantifier": "all square matrices, all pairs k <= k' < n, tie-breaking permutations, worker schedules, partition algorithms (possibly different in the two runs)", "why_tests_cant": "Relates two runs with different k for all matrices.", "anchors": ["hub_toolbox/hubness.py:hubness", "hub_toolbox/shared_neighbors.py:shared_nearest_neighbors", "hub_toolbox/local_scaling.py:local_scaling"]}
{"id": "C198", "title": "An isolated group of objects is processed as if it were alone", "statement": "Let some objects of a data set be nearer to each other than to everyone else, and let there be more than k of them. Then every member of the group gets, from a run on the whole data set, what it gets from a run on the group alone: in hubness the same k neighbours in the same order, from shared_nearest_neighbors bit for bit the same values within the group, from local scaling the same secondary distances within the group (exact arithmetic, ties allowed), and in k-nearest-neighbour classification (score) the same verdict, right or wrong, for every k smaller than the group. Hubness, shared neighbours and classification: distances or similarities, finite, and no ties within the rows of the group; the rest of the data is arbitrary.", "quantifier": "all square matrices, groups at any positions, k, tie-breaking permutations, worker schedules and partition algorithms (possibly different in the two runs)", "why_tests_cant": "Relates runs on data sets of different sizes for all data sets and groups.", "anchors": ["hub_toolbox/hubness.py:hubness", "hub_toolbox/shared_neighbors.py:shared_nearest_neighbors", "hub_toolbox/local_scaling.py:local_scaling", "hub_toolbox/knn_classification.py:score"]}
{"id": "C199", "title": "Index conventions of Mutual Proximity to a sample", "statement": "In Mutual Proximity to a sample (mutual_proximity_empiric with sample_ind, mutual_proximity_gaussi_sample, mutual_proximity_gaussi with idx) the sampled objects, and in the first two the held-out objects (test_set_ind), may be numbered from the end: with n objects, every number from -n to n-1 is accepted and the result is bit for bit the one for the same objects numbered from 0. Any number outside that range, in either argument, raises IndexError and yields no result (for arguments whose shapes and metric pass the input checks). A sparse matrix raises TypeError in the empirical version whatever the other arguments are: the checks for it further down in the function are never reached.", "quantifier": "all rectangular float64 matrices, index lists of any length over all integers, both metrics, with and without held-out objects", "why_tests_cant": "The integers are unbounded and every loop of the two functions indexes with them; tests use a few valid positions.", "anchors": ["hub_toolbox/global_scaling.py:_mutual_proximity_empiric_sample", "hub_toolbox/global_scaling.py:mutual_proximity_gaussi_sample", "hub_toolbox/global_scaling.py:mutual_proximity_gaussi", "hub_toolbox/io.py:check_sample_shape_fits"]}
{"id": "C200", "title": "Index conventions of local scaling, NICDM and shared neighbours to a sample", "statement": "In local_scaling_sample, nicdm_sample and snn_sample (n_jobs = 1) the sampled objects (train_ind) and the held-out objects (test_ind) may be numbered from the end: with n objects, every number from -n to n-1 is accepted and the result is bit for bit the one for the same objects numbered from 0. A number outside that range in train_ind raises IndexError whatever k is. One in test_ind never yields a result, and raises IndexError in every call that would succeed without test_ind (for snn_sample: in every call whose shapes and metric pass the input checks).", "quantifier": "all rectangular float64 matrices, index lists of any length over all integers, k, metrics, partition and sorting algorithms, with and without held-out objects", "why_tests_cant": "The integers are unbounded and every loop indexes with them; tests use a few valid positions.", "anchors": ["hub_toolbox/local_scaling.py:local_scaling_sample", "hub_toolbox/local_scaling.py:nicdm_sample", "hub_toolbox/shared_neighbors.py:snn_sample"]}
{"id": "C201", "title": "When the R-precision of an object is 1, and when it is 0", "statement": "For a sparse similarity matrix in which every object is most similar to itself, and an object i with at least one mate (another object with its label). If the similarities of i to all its mates are stored and exceed every stored similarity of i to an object with another label, r_precision reports exactly 1.0 for i. Conversely 1.0 is only reported if all mates are stored and no stored stranger is strictly more similar than a mate. If no mate is stored, or as many stored strangers as i has mates are all strictly more similar than every stored mate, exactly 0.0 is reported. Conversely 0.0 is only reported if no mate is stored, or that many strangers are at least as similar as every stored mate.", "quantifier": "all sparse similarity matrices without NaN and stored zeros, label vectors of up to 2^50 labels, tie-breaking, random permutations, argpartition results", "why_tests_cant": "Infinitely many matrices and all random draws; the converse directions rule out values that rounding could produce.", "anchors": ["hub_toolbox/knn_classification.py:r_precision"]}
{"id": "C202", "title": "Timing records of the approximate method", "statement": "After any history of fit, transform and predict calls on one object, failed calls included, time_fit_, time_transform_ and time_predict_ describe the last call that finished that step and are missing if none did. A transform whose final conversion fails, and a predict that fails after its transform, still update time_transform_; a failed predict leaves time_predict_ as it was. Timing never raises: a call fails exactly with the error of its own work. If the clocks did not run backwards between the two readings, no entry is NaN or negative, the total is at least each of its four parts, the speedup is total / elapsed, and 0 if no time elapsed. The record of predict is made from readings taken after its transform has ended.", "quantifier": "all histories of calls, all failure points, all clock readings (non-negative finite float64, not decreasing for the claims about values)", "why_tests_cant": "Histories and clock readings are unbounded; a test cannot choose what the clocks return.", "anchors": ["hub_toolbox/approximate.py:SuQHR._times", "hub_toolbox/approximate.py:SuQHR.fit", "hub_toolbox/approximate.py:SuQHR.transform", "hub_toolbox/approximate.py:SuQHR.predict"]}
{"id": "C203", "title": "Occurrence counts when the data set falls apart into isolated groups", "statement": "If a group of more than k objects is isolated in a data set (each member is nearer to every other member than to any object outside the group), its members have no tied distances, and every object outside it belongs to some other isolated group of more than k objects, then hubness on the whole data set reports for each member exactly the k-occurrence that hubness on the group alone reports. Even if members are tied, the k-occurrences of the members add up to k times the size of the group: a hub never draws its occurrences from another group. This holds for any positions of the members that keep their order, dense or sparse input, and any random tie-breaking. Without the condition on the outside objects only the neighbour lists are preserved (C198), since isolated members can still be neighbours of outsiders.", "quantifier": "all finite distance or similarity matrices, all such groupings, all k smaller than every group, all random permutations and argpartition results", "why_tests_cant": "The sum ranges over all objects of data sets of every size and all placements of the group; tests try a few.", "anchors": ["hub_toolbox/hubness.py:hubness"]}
{"id": "C204", "title": "Predictions of the approximate method with weights given as a function", "statement": "If knn__weights is a function that maps each distance d to a finite real weight h(d), possibly zero or negative, predict chooses for each query and output the label with the largest total weight among the voters (the smallest label if several have it), provided that total is positive. If no label has a positive total, it silently predicts the smallest label of all candidates, even if none of the voters carries it. The voters are the nearest candidates, as many as with the built-in weightings, and h sees the distances after the non-finite ones were replaced and all were shifted to be non-negative. An error of the function is the error of predict. A constant positive function gives exactly the predictions of uniform weights. Multiplying the function by a positive constant changes no prediction. If all distances are finite and positive, the function 1/d gives the predictions of the built-in weighting 'distance'.", "quantifier": "all distance matrices with non-finite entries, label vectors, numbers of outputs, weight functions with any sign, argpartition and argsort results", "why_tests_cant": "The function is chosen by the caller; tests can try only a few functions and matrices.", "anchors": ["hub_toolbox/approximate.py:SuQHR._predict_knn", "hub_toolbox/approximate.py:SuQHR.predict"]}

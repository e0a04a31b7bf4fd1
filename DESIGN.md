# Formal model of hub-toolbox-python3 in Rocq (Coq 8.16.1)

## 1. Approach

The Python source in `/repo/hub_toolbox` is modelled function by function as
total Gallina functions (`rocq/theories/M_*.v`), one definition per Python
function or per clearly delimited block, each with a comment citing file and
lines.  Independent specifications (what the user is promised, in terms of
counts, sets and order, not of the algorithm) are in `S_*.v`.  Proofs are in
`P_*.v`.  `Properties_*.v` contain only the final theorem statements (proof =
`exact lemma`), non-vacuity examples and `Print Assumptions`.

### Layers

| layer | file | content |
|---|---|---|
| values | `Num.v` | class `Num` of *operations* (no laws); instance `f64` = IEEE-754 binary64 (Flocq `binary_float 53 1024`, round to nearest even) and instance `xr` = real numbers extended by +inf, -inf, NaN |
| python | `Py.v` | `result` = value or raised exception type |
| arrays | `Arr.v` | 2-D array = row count, column count and an index function; 1-D array = list; numpy primitives used by the code (`fill_diagonal`, slice assignment, `bincount`, ...) |
| sorting | `Sort.v` | *contracts* of `argsort`, `argpartition`, `partition`; a reference implementation of each shows that the contracts can be met |
| concurrency | `Conc.v` | shared buffer, tasks = lists of cell writes, arbitrary interleaving; lock-step semantics for the counter |

### What is quantified over

* **Values.** Comparison/count based code (hubness, MP empiric, SNN, k-NN
  classification, Goodman-Kruskal, ...) is proved for `f64`, i.e. for real
  float64 semantics including NaN, infinities, signed zeros and rounding of
  the final divisions.  Analytic code (`exp`, `log`, `sqrt`, means, inner
  products) is proved over `xr`/`R`: rounding and overflow are *not* modelled
  there.
* **NumPy freedom.** `argpartition`, `argsort(kind=quicksort)` and `partition`
  do not specify the order of ties / of unsorted parts.  The model takes them
  as function arguments; theorems hold for *every* function that meets the
  documented contract.
* **Randomness.** Random permutations are arbitrary permutations
  (universally quantified, one per row/call).
* **Schedules.** `multiprocessing.Pool` workers write to shared memory; the
  theorems quantify over every interleaving of the individual cell writes.

## 2. Trusted base

* Coq's kernel (`coqc`, re-checked by `coqchk`).
* Axioms reported by `Print Assumptions`: only the Coq standard library's
  axioms of the real numbers (`ClassicalDedekindReals.sig_forall_dec`,
  `ClassicalDedekindReals.sig_not_dec`,
  `FunctionalExtensionality.functional_extensionality_dep`) and, through
  Flocq's rounding lemmas, `Classical_Prop.classic`.  The list for each
  theorem is printed by the `Properties_*.v` files during the build.
* The faithfulness of the transcription (comments cite the lines), and the
  numpy/scipy contracts in `Arr.v`, `Sort.v`.
* scipy's csr matrices (C168, C169): `csr_matrix((data, indices, indptr))`
  shares its index arrays with the given ones, `tolil()` sorts the indices of
  the matrix it is called on in place, and row slices, `getrow`, `copy` make
  new matrices.

Not modelled anywhere: console logging, `verbose` output, plotting, the
third-party index structures (nmslib, falconn) and sklearn.  Per-function
simplifications are stated in the comment at each definition and summarised in
section 4.

## 3. Plan per property

See the table below (model / proof idea).  `T` = theorem prefix.

| id | model | proof idea |
|---|---|---|
| C01 | M_Hubness.v: hubness_serial, hubness_parallel | bincount of a list of in-range indices has length m and sums to its length; every row contributes k indices in range |
| C02 | same | argpartition contract at positions 0..k-1 sorts the prefix; prefix elements precede the rest; transported through the shuffle |
| C03 | same | counting argument: k finite values exist, the prefix holds values <= them, self carries the worst value |
| C04 | M_Hubness.v + Conc.v | row tasks write disjoint cells; disjoint writes commute, induction on interleavings |
| C05 | M_Hubness.v | case split on shapes; witness by computation |
| C06 | M_Hubness.v | a strictly sorted selection is unique (two sorted permutations of distinct keys coincide) |
| C07 | M_MPEmpiric.v: mp_empiric_full | loop invariant of the row/column accumulation, closed form, compare with S_MP count |
| C08 | same | 0 <= c <= n-2, monotonicity of rounding (Flocq) |
| C09 | same | closed form uses only comparisons |
| C10 | same | count of > versus >=; witness with ties |
| C11 | mp_empiric_sample | closed forms of both coincide on symmetric D |
| C12 | mp_empiric_sparse | inclusion-exclusion on index sets |
| C13 | mp_empiric_full test_ind branch | case analysis |
| C14 | M_SNN.v | closed form of the two loops; k-set from argpartition contract |
| C15 | M_SNN.v + Conc.v | disjoint writes |
| C16 | M_SNN.v, M_LS.v sample variants | closed form of fill_diagonal on rectangular arrays; witness |
| C17 | M_GK.v | invariant of the merge count over the sorted list; double counting |
| C18 | M_GK.v | from C17 |
| C19 | M_GK.v sparse | invariant with implicit zeros |
| C20 | M_KNN.v: score | loop invariant over test points |
| C21 | M_KNN.v | float witness by computation; exact sum by induction |
| C22 | M_KNN.v | prediction only reads labels of the selected neighbours, and self is filtered |
| C23 | M_KNN.v vote | unique argmax; witness |
| C24 | M_KNN.v | setdiff1d(arange(t), test) bound |
| C25 | M_KNN.v f1_* | field arithmetic in R |
| C26 | M_KNN.v predict | case analysis |
| C27 | M_LS.v | closed form; partition contract gives the k-th smallest |
| C28 | same | r scales with c; algebra |
| C29 | same + Conc.v | task i owns cells with min(a,b)=i |
| C30 | same | monotonicity of exp |
| C31 | same | 0/0 in xr |
| C32 | same | as C27 |
| C33 | M_Centering.v | finite sum algebra |
| C34 | same | algebra, witness |
| C35 | same | algebra |
| C36 | same | algebra |
| C37 | M_Distances.v | Cauchy-Schwarz |
| C38 | M_Utils.v | invariant of a transition system with lock, split read/write and process death |
| C39 | M_IO.v | case analysis |
| C40 | M_IO.v | record round trip, dense view |
| C41 | M_Analysis.v | induction over call history |
| C42 | M_HubnessClass.v | sum rearrangement, induction |
| C43 | same | bounds on sums |
| C44 | same | case analysis |
| C45 | same | ceil arithmetic, concatenation of slices |
| C46 | same | contract + witness |
| C47 | M_Approx.v | folds for max/min; float witness |
| C48 | M_Approx.v | sum over duplicates |
| C49 | M_GK.v | as C17/C19, on the non-zero values |
| C50 | M_KNN.v | as C22/C23, on predict |
| C51 | M_MPEmpiric.v | pool lemma plus assembly |
| C52 | M_LS.v | the self entry is the n-th smallest of its row; limit values of the formula |
| C53 | M_LS.v | rank computed from n, applied to n - t columns |
| C54 | M_LS.v | case analysis on the number of workers |
| C55 | M_Centering.v | weights are powers of 1 - cos, normalised |
| C56 | M_Centering.v + Conc.v | centroid closed form; neighbour list from the partition contract with the excluded point masked by +inf |
| C57 | M_Dist.v | Rpower algebra |
| C58 | M_Centering.v | as C56 |
| C59 | M_Centering.v | self distance 0 is the strict minimum |
| C60 | M_IO.v | arithmetic of integer quotients |
| C61 | M_IO.v | maximum bounds every entry |
| C62 | M_Analysis.v | case analysis of the dispatch, inversion of the loop over names |
| C63 | M_Analysis.v | C02 instantiated with the metric the experiment passes on |
| C64 | M_HubnessClass.v | every batch raises, so every schedule does |
| C65 | M_HubnessClass.v | no batch is run; the buffer keeps its zeros |
| C66 | M_HubnessClass.v | offsets into the flat csr arrays; contract of argpartition |
| C67 | M_Approx.v | loop invariant: closest distances and potential of the centres so far; searchsorted on cumulated sums |
| C68 | M_Approx.v | cell = count over vantage points by induction over the loop; worker pools as any distribution and interleaving; error cases by case analysis of the checks |
| C69 | M_Approx.v | moments as exact means; bias by algebra on sums with one extra zero |
| C70 | M_Approx.v | partition contract gives rank k among 0 :: others; two explicit legal partitions give different NICDM radii |
| C71 | M_Approx.v | argpartition contract gives the k+1 nearest in some order; two explicit legal orders give different local centroids |
| C72 | M_ApproxANN.v | answers of the index are arbitrary lists; row by row; pools by `pool_run` lemmas; fresh memory universally/existentially quantified; queries with one worker: Properties_Tight.v |
| C73 | M_ApproxANN.v | set difference as duplicate free list; searchsorted by contract; exactness by a sorted list argument |
| C74 | M_Approx.v | case analysis; case folding of letters decided over all 256 characters, words by induction |
| C75 | M_ApproxPredict.v | sklearn's classifier as argpartition plus mode; order unchanged by the shift of enforce_finite_distances; counting votes |
| C76 | M_ApproxANN.v | exact index = sorted duplicate free list without nearer objects left out; rank and k-smallest lemmas; mean of the k smallest |
| C77 | M_Simhub.v | sums over columns become sums over common neighbours; every common neighbour of two objects occurs at least three times |
| C78 | M_Simhub.v | both pools write values determined by the cell |
| C79 | M_Simhub.v | without own occurrences both ways of counting agree; 0/0 for s = 0 |
| C80 | M_Simhub.v | general value lemma for any sample, specialised to leading rows; matrices with one strictly nearest column as witnesses |
| C81 | M_Simhub.v | Gibbs' inequality for two classes; 3^5 < 2.5^6 for the three class witness |
| C82 | M_MPDist.v | value lemma for a cell; the distribution functions are function parameters with a contract (S_MPDist.v: `normal_family`), a logistic family shows the contract can be met |
| C83 | M_MPDist.v | mean and deviation of an affine image |
| C84 | M_MPDist.v | value lemma plus monotonicity of the distribution function |
| C85 | M_MPDist.v | the observations of a column are the same lists |
| C86 | M_MPDist.v | row value lemma; rows are independent |
| C87 | M_MPDist.v | rows of a symmetric matrix are its columns |
| C88 | M_MPDist.v | case analysis of the prologue |
| C89 | M_MPDist.v | as C82; `gamma_family` contract, rational function as witness |
| C90 | M_MPDist.v | sums over stored values equal sums over known similarities (permutation) |
| C91 | M_MPDist.v | C82 and C90 with equal lists of observations |
| C92 | M_MPDist.v, M_MPEmpiric.v | the metric is not used after the checks; values by C90 |
| C93 | M_MPDist.v | square root of a negative number |
| C94 | M_MPDist.v | cell by cell analysis of the assembly; five objects as witness |
| C95 | M_ID.v | sorted squared distances = 0 followed by the squared neighbour distances (uniqueness of sorted permutations); logarithms of quotients |
| C96 | M_ID.v | the result is a function of the lists of neighbour distances, and does not depend on their order |
| C97 | M_ID.v | division by zero in the extended reals |
| C98 | M_ID.v | explicit logarithms of four points |
| C99 | M_ID.v | case analysis |
| C100-C102 | M_SparseKNN.v | the sorted prefix of each row is a list of most similar objects (S_SparseKNN.v `top_list`); range of double precision quotients and of sums in any association |
| C103 | M_SparseKNN.v | first raising object |
| C104 | M_SparseKNN.v | counting the objects ahead of i |
| C105 | M_SparseKNN.v | position by position; an argpartition that leaves two positions unsorted as witness |
| C106 | M_SparseKNN.v | fold over the points; the voters are a `top_list` of the row |
| C107 | M_SparseKNN.v, M_KNN.v | without ties the voters of both evaluations are permutations of each other with the same head |
| C108-C109 | M_SparseKNN.v | C106 without the assumption on the diagonal; the predictions do not depend on the test set |
| C110 | M_SparseKNN.v | first raising object |
| C111 | M_Analysis.v with M_MPDist.v and M_ID.v | inversion of runs, induction over the loops |
| C112, C113, C117 | M_MPDissim.v, spec S_MPDissim.v | bins as counts of separators, sums of a histogram as counts; power means over the reals |
| C114 | the three maps of the second pool as interleavings of writes | every cell is written with one value only |
| C115 | M_MPDissim.v | length of the list of separators |
| C116 | M_MPDissim.v over any ordered arithmetic | the bin of a value is a function of its rank |
| C118 | M_MPDissim.v, sklearn's splitter by contract | inversion |
| C119 | M_SNNSample.v, pool of Conc.v | both phases write every cell once (pool_run_fun) |
| C120 | M_SNN.v, M_SNNSample.v | bounds in float64; both neighbourhoods are the k nearest, unique without ties |
| C121 | M_LSSparse.v: dense or sparse argument | the sparse path by cases |
| C122 | M_Predict.v: predictions and counts in one loop | the loop's result is predict's, the counts a filter length |
| C123 | M_Predict.v | ranking puts the zero cells first; election among equal labels |
| C124, C125 | M_MPDist.v | closed forms of mean and variance; monotone exp; NaN propagation |
| C126 | M_Text.v | inverse of decimal notation; induction over words and lines of the file |
| C127 | M_Text.v | words of a rendered line; lines by position |
| C128 | M_Text.v | float64 division error below 2^-53: truncation of a rounded quotient of integers below 2^51 is the integer quotient |
| C129 | M_Hubness.v `hub_Sk` | Cauchy-Schwarz on the third moment with the bound on a single deviation; direct computation for one hub; counting for complete neighbourhoods |
| C130 | M_Skew.v, S_Skew.v (moments by Riemann integral, Coquelicot) | mean and standard deviation under reflection; the integral of z^3 exp(-z^2/2) from its primitive |
| C131 | S_Relabel.v | neighbours are determined by the order (C06); renaming preserves it |
| C132 | S_Relabel.v and the models of C07, C14, C17, C27, C32 | counts, multisets of others, neighbour sets and edges are permuted by a renaming |
| C133 | M_Report.v: printed lines as values, round() of a float64 | sorted distinct keys, inversion of the experiment, induction over the experiments |
| C134 | M_Report.v, M_ID.v | NaN propagation through the estimate, inversion of the run; witness by evaluation |
| C135 | M_DSLInt.v | the explicit form of C56 with truncated centroids; witness 0, 1, 3 on a line |
| C136 | M_Hubness.v, M_SNN.v, M_KNN.v | specification S_Order.v (two matrices that rank alike); uniqueness of neighbour lists, sets and rankings without ties |
| C137 | M_Lifecycle.v | object state, histories as lists of calls; invariants of n_samples and of the fitted data; fit and transform in two steps equal the one-shot models; distances without reduction: Properties_Tight.v |
| C138 | M_Lifecycle.v | the number of objects is stored before the work that may fail; pigeonhole for random samples |
| C139 | M_Lifecycle.v | in place change of sec_dist_, aliasing without sampling; witness with local DisSim |
| C140 | M_LS.v | signs of float64 products and quotients; ranges by monotonicity of rounding; underflow and overflow of squares (defect) |
| C141 | M_LS.v | rounding commutes with powers of two in the normal range; k-th smallest values scale |
| C142 | M_MPDist.v | [0,1] or NaN is closed under products and complements in float64; mirroring |
| C143 | M_Dist.v | mask and mirror in float64 |
| C144 | M_LS.v | sign bit through mean, product, root and quotient |
| C145 | M_InPlace.v | the functions as programs on a heap of arrays (Heap.v), every copy and every write in place; each program is proved to return what the model without memory returns and to leave the heap it started with as it was |
| C146 | M_InPlace.v | dis_sim_local with the aliases of its copies and of its distance arrays |
| C147 | M_InPlace.v | induction over the sequence of calls; results are new arrays |
| C148 | M_Rng.v | generators as state machines; which generator each path draws from; witness with three equal distances |
| C149 | M_Rng.v | workers start from copies of one generator state; counts for equal distances by counting positions of one permutation |
| C150 | M_LS.v | relative errors of two products and a quotient (P_LSAcc.v); exp(-x) changes by at most d when x changes by the fraction d; underflow and overflow of the quotient separately |
| C151 | M_LS32.v: local scaling on float32 input, with float64 shared buffers when a pool is used | products of tiny float32 numbers round to zero; 0/0 in float32, 0/positive in float64 |
| C152 | M_IntInput.v: the functions up to the first store of a float into an integer array, the rest arbitrary | the conversion of infinity or NaN raises; integers up to 2^53 are exact in float64, so C02 applies |
| C153 | M_ApproxWeights.v: the classifier with weights and several outputs after `enforce_finite_distances` | the vote loop elects the heaviest smallest label; the shift is the negated minimum; rows without ties have unique neighbours; witnesses for the defects for every legal argpartition |
| C154 | M_Params.v: `__init__` with all arguments, get_params, set_params, the parameter that fit overwrites | normalisation is idempotent (all 256 characters); C153 for the votes of the copy; M_Lifecycle.v for fit |
| C155 | M_Shared.v: the object of M_Lifecycle.v whose attributes refer to arrays of the caller, with assignments as steps | the stored references are invariant under everything but fit; then C137's lemmas for the contents found there; equality with an object that shares no memory: Properties_Unshared.v |
| C156 | M_HubnessLife.v: the object Hubness with its attributes and generator; assignments, failed and successful fits as steps | attributes are invariant under the steps listed; the draws for stacked rows are the draws for the first rows followed by those from the advanced generator; the generator of the module: Properties_Tight.v |
| C157 | M_Start.v: pool of processes, each with its own copy of a buffer unless it is shared; shared = forked, or the buffer is passed as multiprocessing Array | runs with a shared buffer are exactly interleavings of writes (Conc.v); with private buffers the parent's one never changes, so the result is that of a zero buffer |
| C158 | M_LS.v, NICDM over float64 | errors are followed on a logarithmic scale (x and y are e-close if they differ by a factor within exp(-e), exp(e)), so that products, quotients and roots add up their errors; sums by the error bound of np.sum; for left-to-right summation the bound is proved by induction |
| C159 | M_SkewFloat.v: scipy.stats.skew over float64 as hubness calls it | k-occurrences of n objects have mean k exactly, so deviations, squares, cubes and their sums are whole numbers below 2^53 and exact in any order of summation; what remains are two divisions, a power and a quotient |
| C160 | M_Dist.v, cosine_distance over float64 | relative errors of squares, norm, quotients and products as factors near 1; sums by the error bound of np.sum; Cauchy-Schwarz bounds the sum of absolute products by 1 |
| C161 | M_Crash.v: a pool as a state machine with a step that kills any worker at any moment; the functions of C157 on such pools | tasks that can still answer plus answers never grow and drop with each lost task, so a pool that returns lost none and simulates the pool of C157; a measure for termination; a lost lock stops the pool for ever: Properties_Tight.v |
| C162 | M_Holdout.v: the argument of held-out objects as None, integers or a boolean mask, as np.setdiff1d reads it | the six functions depend on the argument only through its values in 0..n-1; an indicator column separates two different training sets |
| C163 | chains of Mutual Proximity, shared-neighbour distances, local scaling and NICDM in float64, each on the result of the one before (M_Chain.v) | induction over the calls with bounds 2^a..2^b on the off-diagonal entries as invariant (from C08, C14, C140, C158); defect: zero radii after shared-neighbour distances, witness with four objects |
| C164 | Robin Hood and Atkinson indices of class Hubness in float64 (M_HubnessClass.v) | whole mean: every step but the last division is exact; otherwise error propagation with absolute (Robin Hood) and logarithmic (Atkinson) errors; mean of order 1/4 at most the mean by two applications of the square-mean inequality |
| C165 | secondary distances of C07, C14, C27, C32, C37; metric and ultrametric in S_Metric.v | overlaps of k-sets obey ov(i,l)+ov(l,j) <= k+ov(i,j), each value is within 2^-52 of 1-c/k (exact for k a power of two); in an ultrametric the points beyond the longer side are among those beyond the shorter; counterexamples evaluated in float64 or computed exactly |
| C166 | centering of M_Centering.v in float64 | error of the computed mean from the contract of np.sum and one division; the subtraction has a relative error even near zero; triangle inequality over the column; the second centering by the first theorem applied twice |
| C167 | hubness (M_Hubness.v) against hubness_from_vectors and the class (M_HubnessClass.v) | dropping the first of k+1 gives the k nearest others; these are a nearest list under the function's effective values; uniqueness of such lists without ties; the differences (large k, missing has_self_distances, zero distances of queries) by the same lemmas |
| C168 | M_CsrRaw.v: csr matrices as index and value lists, the shared index arrays of global_scaling.py:378-392 | with ascending columns binary search finds the cell and sorting changes nothing, so reading after writing gives the cell-wise model (`same_outcome`); otherwise sorting the shared indices without the values is followed through; witnesses for the lost similarity |
| C169 | M_InPlaceSparse.v: the sparse Gaussian, Gamma and empiric computations as programs on matrices in memory | run the program symbolically; loops that update one matrix are folds; column sums of the copied rows are the column sums of the model |
| C170 | M_MPThreads.v: any number of calls of mp_dissim as interleaved steps over the module-level names kth and histograms; each forked worker has its own copy of them | step invariants: of an undisturbed call (schedules without overlap), of calls with the same bins (all schedules); the defects by explicit schedules, values by the C112 development |
| C171 | gammai_sparse of M_MPDist.v, moments of columns with fewer than two or equal known values | case distinction over the number of known values; a zero or negative scale becomes NaN; complement by C94 |
| C172 | M_MPSpawn.v: mp_dissim with a start method; a worker reads kth and histograms from its parent only if it was forked | equal to M_MPDissim.mp_dissim for fork; otherwise the first task that reads a name raises NameError |
| C173 | M_HubRng.v: the loop of one process with a generator state; one copy of the generator per forked worker, rows handed out in order | the permutation of a row is the draw with the number of its turn (induction over the schedule); equal rows and equal permutations give equal tasks; occurrences by C01; position in the list of a worker = number of its turn gives the closed forms of C148, C149 |
| C174 | M_KnnRng.v: score and r_precision with the state of the generator passed from draw to draw, chunks of 100 objects, one copy per forked worker | refinement of the models with arbitrary permutations: the permutations are built from the states by induction over points, chunks; number of the draw by induction over chunks |
| C175 | M_SparseKNN.v (rprec_worker); S_SparseNaN.v: known similarities, rank among the stored entries, the object a similarity is taken for | the ranking with NaN dropped after the partition: q NaN sit at the end, so only R + 1 - q positions are fixed; reading back through the non-zero columns |
| C176 | M_SparseKNN.v (sp_point, score_sparse); specification of C175 | the ranking lemma of C175; votes from the lemmas of C106 with blamed objects in place of neighbours |
| C177 | M_KNN.v, M_SparseKNN.v with Flocq's binary64 | induction over the number of correct objects: the accumulated value stays below 1.5, every addition errs by at most 1.4 * 2^-53, and each step of 1/n is larger than its rounding error |
| C178 | M_LS.v (sample variants) with Flocq's binary64 | the radii are entries of the matrix (C16's selection lemmas for float64), so the one-value bounds of C150 and C158 apply; self cells: exp(-inf) and inf/finite |
| C179 | M_MPEmpiric.v, M_SNN.v with Flocq's binary64 | the values are a count divided by n (C07, C11, C14); each of the two roundings errs by at most 2^-53, less than half the distance 1/n between two counts |
| C180 | M_GK.v with Flocq's binary64; int64 counters unbounded, hence the bound 2^63 | induction over the classes: after m classes each counter is its count times (1 +- u)^2m; the quotient of difference and sum errs by at most twice the relative error of the counters |
| C181 | `M_RPool.v`: the pool of `r_precision` as a machine: initialiser, chunks, results as messages that `imap` puts in order, killed and replaced workers | invariants of all histories (every item in place, every chunk in one place), decreasing weight for the end of the call |
| C182 | `M_MPKill.v`: `mp_dissim` with the message pool of `M_RPool.v` for the bin edges and the pools with shared buffers and killed workers of `M_Crash.v` for the rest | invariants of C181 for `Pool.map`; every outcome is one of `M_MPDissim.v`; existence from the termination theorems |
| C183 | `M_HubnessClass.v` (`hubs`) at binary64 | occurrences are exact, so the comparison is monotone under the rounding of the product; relative error of one multiplication; computed witness 1.1 * 50 |
| C184 | `M_KNN.v` (`score`) | the sorted distinct labels commute with increasing maps, so all class indices stay; election commutes with injective maps, voters do not depend on labels (C22 lemmas); C24 for the test set |
| C185 | `M_FloatLabels.v` (labels as float64: `Btrunc` for astype(int), the exact multiple of 2^-1074 for comparisons) | exactness of small integers, Ztrunc of a number below 1, C18 and the specification of the index; computed witness |
| C186 | `M_KNN.v` (`score`) | the ranking of an object does not depend on k, the elected label is unique; the shuffled list of an object without finite values is a permutation of all objects; computed witness for k = 0 |
| C187 | `M_KNN.v` (`f1_score`, `f1_macro`, `f1_weighted`) at float64 | the exact value times at most 8 factors (1 ± 2^-53), quotients cost two per factor of the divisor; sums by induction over the association; the gap between different fractions beats the error; computed witness for ties |
| C188 | `M_KNN.v` (`predict`) | the voters do not depend on the targets and are never empty; the elected label is unique and commutes with injective renaming; the list of all labels is the new labels followed by the old ones |
| C189 | `M_NegTest.v`: `score` with integer test numbers, numpy's reading of negative indices | refinement to `score` for non-negative numbers; the fold over the tested objects commutes with permutations; candidates by membership |
| C190 | `M_SparseKNN.v` (`r_precision`), float64 by Flocq | values of C100, relative error of division, averages by the bound on sums in any order (P_F1Acc.v); gap between different fractions |
| C191 | `M_HubnessClass.v` (`gini_index`, `hub_occurrence`), float64 by Flocq | relative error of the two conversions and divisions; gap between different fractions with small denominators; witness by computation |
| C192 | `M_Hubness.v`, `M_MPEmpiric.v`, `M_LS.v`, `M_SNN.v`; spec `extends`, `remote` in `Properties_Remote.v` | the old k nearest remain k nearest among one more, and are unique without ties; the count of third objects grows by one for every pair |
| C193 | `M_Hubness.v`, `M_MPEmpiric.v`, `M_SNN.v`; spec `duplicates` in `Properties_Dup.v` | counts of third objects; the neighbourhoods of duplicates are exchanged by swapping the two; witness by computation |
| C194 | `M_Hubness.v`, `M_SNN.v`, `M_KNN.v`, `M_GK.v`, `M_MPEmpiric.v`, `M_LS.v`; spec `separated` in `Properties_Separated.v` | a stranger among the k nearest leaves a class mate out (pigeonhole); counts of third objects inside and across classes differ by a class; witness with five objects for the defect |
| C195 | `M_Hubness.v`, `M_MPEmpiric.v`, `M_LS.v`, `M_SNN.v`; spec `closer` in `Properties_Closer.v` | counts of third objects are monotone in one entry; the k-th smallest value moves only between the old and the new entry; witness by computation |
| C196 | `M_Hubness.v`, `M_SNN.v`, `M_LS.v`, `M_KNN.v`; spec `nobodys_neighbour` in `Properties_Antihub.v` | a k-set of the smaller data set is a k-set of the larger one, by counting the objects ahead of the new one; without ties it is unique |
| C197 | `M_Hubness.v`, `M_SNN.v`, `M_LS.v`; statements in `Properties_LargerK.v` use only the API and `all_finite`, `untied` | prefixes of nearest-neighbour lists are nearest-neighbour lists and unique; k-sets grow; k-th smallest values grow with k |
| C198 | `M_Hubness.v`, `M_SNN.v`, `M_LS.v`, `M_KNN.v`; spec `part_of`, `outsider`, `isolated` in `Properties_Group.v` (classification: `Properties_GroupKNN.v`) | the image of a nearest-neighbour list of the group is one in the whole data set, and unique; outsiders never count below the k-th smallest distance |
| C199 | `M_SampleZ.v`: the two `_sample` functions with integer indices, every array access resolving its index; spec `position`, `from_start` in `Properties_SampleZ.v` | refinement to the versions with natural-number indices by induction on the loops; the first access out of range raises |
| C200 | `M_LSSampleZ.v`: `local_scaling_sample`, `nicdm_sample`, `snn_sample` with integer indices; spec `position`, `from_start` in `Properties_SampleZ.v` | as C199; the loop over the held-out objects is shared by the three functions |
| C201 | `M_SparseKNN.v`; spec `mate_of`, `stranger_of`, `mates_vs_strangers`, `crowded_out` in `Properties_RPrecExtreme.v` | from C100: the list of most similar objects, pigeonhole on mates and strangers; rounded shares of a count are 1 or 0 only at the ends |
| C202 | `M_Times.v`: `_times` and where fit, transform and predict call it; spec `fitted_in`, `transformed_in`, `predicted_in`, `of_last`, `before` in `Properties_Times.v` | induction on the history; rounded differences and sums of non-negative numbers |
| C203 | no new code; spec `in_other_group` in `Properties_Groups.v` on top of `part_of`, `isolated` | the lists of members are those of the group (C198), the lists of outsiders contain no member; occurrences as sums over the lists |
| C204 | `M_ApproxWeightFn.v`: predict with a function as `knn__weights`; spec `pointwise`, `winner`, `function_rule` in `Properties_ApproxWeightFn.v` | invariant of the loop of weighted_mode for weights of any sign |

## 4. What is modelled and what is not

| source file | modelled | not modelled (so far) |
|---|---|---|
| hubness.py | `hubness` (serial, parallel), `hubness_from_vectors`, class `Hubness` completely; `stats.skew` over the reals (M_Hubness.v) and with rounding (M_SkewFloat.v), `stats.truncnorm(a, b).moment(3)` as a parameter (M_Skew.v) | rounding inside truncnorm |
| global_scaling.py | all public functions: empiric, Gaussian, Gamma, `_sample` variants (with negative indices), sparse variants | – |
| local_scaling.py | `local_scaling`, `nicdm`, both `_sample` variants, dense and sparse input | |
| shared_neighbors.py | all functions | |
| knn_classification.py | `score`, `predict` with confusion matrices, both dense and sparse, `r_precision`, F1 measures | printing |
| goodman_kruskal.py | all three index functions | |
| centering.py | all functions; dis_sim_local also for integer vectors (M_DSLInt.v) | the other functions on integer vectors; overflow of int64 |
| distances.py | all functions | sklearn's splitter and scipy's metrics (contracts) |
| io.py | all checks, `load_dexter`, `FreeMemLinux`, `matrix_split` (float64), csr save/load, `random_sparse_matrix` | np.loadtxt of the class file; non-ASCII text; `FreeMemLinux` without `/proc` |
| utils.py | the shared counter, step by step | |
| hubness_analysis.py | experiment history and dispatch, report printing (lines as values) | decimal formatting of floats |
| approximate.py | `enforce_finite_distances`, `_sparse_distance_matrix`, `kmeanspp`, constructor, fixed vantage points, index based methods (`hnsw`, `lsh`) given the index's answers, `predict` with both kinds of weights and several outputs, the life cycle of the object (fixed vantage points), get_params and set_params, memory shared with the caller, timing records, weights given as a function of the single distance | the index libraries, weight functions with state or across queries |
| intrinsic_dimension.py | `intrinsic_dimension` | the order chosen by `lexsort` (any permutation) |

Simplifications that occur in several models (each is repeated in the comment
of the definition it concerns):

* Python integers are unbounded, so are numpy's `int64` counters in the model;
  array indices are natural numbers, index arrays hold non-negative integers
  (except in C162, C189, C199 and C200).
* `sum`, `mean`, `exp`, `log`, `power` on floats are function parameters.
  Theorems at `f64` hold for every such function; theorems at `xr` use the
  exact ones.
* A worker pool runs every task once, on any worker, with any interleaving of
  single cell writes; a worker that raises makes the call raise.  Workers are
  started by fork, except in C157 and C172, which are about the other start methods.  Killed
  workers are modelled for the shared counter (C38) and for pools (C161).
* Distances that sklearn computes from vectors are a function of the two rows;
  in BLAS the last bits may also depend on the position of the row in its batch.
* `approximate.py` casts all data to float32 (`NumF32.v`, Flocq's `binary_float
  24 128`); counts are divided in float64 and rounded when stored (`f32_of`).
* Exceptions are modelled by their class, not by their message.

## 5. Findings

Properties whose title starts with `DEFECT` describe behaviour of the code that
contradicts its documentation or is certainly unintended.  Each is proved as a
characterisation for all inputs, a witness, or both.

## 6. Tests against wrong programs

`seeded/LOG.jsonl` has one line per edited model.  `first_failures` are the
lemmas and theorems whose own proofs failed when the edited model was rebuilt
(a failed proof is skipped so that the rest of the build can go on).
`theorems_failed` adds the theorems that rest on them.  These are found from the
names that occur in the sources, not from the kernel, so the list may be too long
where a name occurs without being needed.  For some edits only the files needed
by the property in question were rebuilt.

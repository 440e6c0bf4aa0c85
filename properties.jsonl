{"id": "C01", "title": "Holdout split is a partition with the requested sizes", "statement": "sample()'s holdout split returns train, val and test index arrays that are each strictly ascending, pairwise disjoint and together exactly 0..n-1; the test part has clamp(round(test_fraction*n)) elements and the val part clamp(round(val_fraction*(n-|test|))) elements, stratified or not.", "quantifier": "every number of samples, every label array, every pair of fractions, stratified or not, every random generator state and every tie-breaking of the internal sorts", "why_tests_cant": "Partition and exact size must hold for all class histograms, including ones where per-class rounding could lose or duplicate an element; tests sample a few.", "anchors": ["src/modssc/sampling/splitters.py: random_split, stratified_holdout, make_holdout_split"]}
{"id": "C02", "title": "Stratified holdout keeps class proportions", "statement": "In a stratified holdout every class contributes floor or ceil of its exact proportional share counts[c]*n_holdout/total to the held-out part, and never more than its own size.", "quantifier": "every class histogram, every holdout size strictly between 0 and total, every random state, every sort order that lists larger remainders before zero remainders", "why_tests_cant": "Off-by-one in remainder distribution shows only for particular histograms.", "anchors": ["src/modssc/sampling/splitters.py: stratified_holdout", "src/modssc/sampling/common.py: class_counts"]}
{"id": "C03", "title": "K-fold test sets partition the data", "statement": "For fixed data, k and random state, make_kfold_split rejects k<=1 and folds outside 0..k-1; otherwise the k test sets obtained by varying fold are pairwise disjoint and cover 0..n-1, train+val is exactly the complement of test, plain fold sizes differ by at most one, and each class is spread over stratified folds with counts differing by at most one.", "quantifier": "every n, k, fold, label array, shuffle flag, validation fraction and random state", "why_tests_cant": "Coverage over all folds is a statement about k separate calls for every k and n.", "anchors": ["src/modssc/sampling/splitters.py: make_kfold_split, plain_kfold, stratified_kfold"]}
{"id": "C04", "title": "Labelled selection is a duplicate-free subset of train respecting availability", "statement": "select_labeled returns a strictly ascending duplicate-free subset of the train indices; with fixed_indices it returns exactly those indices or rejects them when they are not a duplicate-free subset of a non-empty train set; no class gets more labels than it has train samples.", "quantifier": "every train index set, label array, labelling specification (mode, value, strategy, min_per_class, fixed indices), random state and sort order", "why_tests_cant": "The allocation has four adjustment passes; a test sees only a few class histograms.", "anchors": ["src/modssc/sampling/labeling.py: select_labeled"]}
{"id": "C05", "title": "Labelled selection size", "statement": "With non-negative value the number of selected labels is exactly max(target, sum over classes with at least min_per_class samples of min_per_class), where target is the clamped requested count; every class with at least min_per_class samples receives at least min_per_class labels.", "quantifier": "every class histogram, mode, value, strategy, min_per_class and sort order", "why_tests_cant": "The add/remove loops are order dependent; the closed form must hold for every order.", "anchors": ["src/modssc/sampling/labeling.py: select_labeled"]}
{"id": "C06", "title": "per_class labelling gives every class at most the requested number", "statement": "With mode=per_class, value=v and min_per_class<=v no class receives more than v labels.", "quantifier": "every class histogram and every v", "why_tests_cant": "It fails only when one class is smaller than v while another is larger.", "anchors": ["src/modssc/sampling/labeling.py: select_labeled", "src/modssc/sampling/plan.py: LabelingSpec"]}
{"id": "C07", "title": "Imbalance only removes samples and honours its caps", "statement": "apply_imbalance returns an ascending duplicate-free subset of its input; kind none keeps everything; subsample_max_per_class keeps exactly min(count, cap) of every class; long_tail keeps exactly min(count, max(round(max_count*alpha^rank), min_per_class)) of the class of that frequency rank; invalid parameters are rejected whenever the input is non-empty.", "quantifier": "every duplicate-free index set, label array, imbalance specification, random state and sort order", "why_tests_cant": "The per-class exact counts must hold for all histograms and ranks.", "anchors": ["src/modssc/sampling/imbalance.py: apply_imbalance"]}
{"id": "C08", "title": "An inductive sample always passes its own validation", "statement": "Whenever _sample_inductive's splitting, imbalance and labelling succeed, the resulting train/val/test/train_labeled/train_unlabeled arrays pass SamplingResult.validate: labelled and unlabelled partition train, train/val/test are disjoint and in range, and with a respected official test set the test part is exactly 0..n_test-1 of that set.", "quantifier": "every dataset, plan, policy combination and random state", "why_tests_cant": "It is a relation between independently computed arrays over all plans.", "anchors": ["src/modssc/sampling/services/service.py: _sample_inductive", "src/modssc/sampling/result.py: SamplingResult.validate"]}
{"id": "C09", "title": "A graph sample's masks are consistent", "statement": "Graph sampling yields boolean masks of length n with labeled inside train, unlabeled = train minus labeled and train/val/test disjoint; otherwise it raises a validation error (official masks that overlap).", "quantifier": "every node count, label array, official mask triple, plan and random state", "why_tests_cant": "Same as above; official masks come from outside.", "anchors": ["src/modssc/sampling/services/service.py: _sample_graph, _idx_to_mask", "src/modssc/sampling/result.py: SamplingResult.validate"]}
{"id": "C10", "title": "Graph sampling honours the requested imbalance on the train part", "statement": "A plan with imbalance apply_to=train changes a graph sample's train mask in the same way it changes an inductive sample's train indices.", "quantifier": "every graph dataset and imbalance specification", "why_tests_cant": "A silently ignored option is invisible to tests that do not set it.", "anchors": ["src/modssc/sampling/services/service.py: _sample_graph"]}
{"id": "C11", "title": "Sampling plans survive a dictionary round trip", "statement": "SamplingPlan.from_dict(plan.as_dict()) equals plan for every normalised plan, and from_dict rejects any mapping containing an unknown key at any of its levels.", "quantifier": "every plan and every dictionary", "why_tests_cant": "Universally quantified over nested option combinations.", "anchors": ["src/modssc/sampling/plan.py: SamplingPlan, HoldoutSplitSpec, KFoldSplitSpec, LabelingSpec, ImbalanceSpec, SamplingPolicy"]}
{"id": "C12", "title": "Derived seeds never share a hash input", "statement": "Two different (master seed, label) pairs always feed different byte strings to the hash, in sampling, preprocessing and augmentation seed derivation, so streams can coincide only through a hash collision.", "quantifier": "every pair of integer seeds and every pair of labels", "why_tests_cant": "Injectivity of an encoding is a statement about all pairs.", "anchors": ["src/modssc/sampling/fingerprint.py: derive_seed", "src/modssc/preprocess/fingerprint.py: derive_seed", "src/modssc/data_augmentation/utils.py: make_numpy_rng / seed payload"]}
{"id": "C13", "title": "Stored splits load back, and a crash never mixes two splits", "statement": "load_split after save_split returns the saved arrays and metadata; a save interrupted at any point leaves a directory that either fails to load or loads one of the two complete splits (old or new).", "quantifier": "every pair of splits and every crash point", "why_tests_cant": "Crash points between the two file writes cannot be enumerated by unit tests.", "anchors": ["src/modssc/sampling/storage.py: save_split, load_split", "src/modssc/utils/io.py: atomic_write_text"]}
{"id": "C14", "title": "The dataset cache lock is mutually exclusive", "statement": "At most one process is inside cache_lock for a given fingerprint at any time.", "quantifier": "every number of processes and every interleaving of their attempts, failures and releases", "why_tests_cant": "Depends on interleavings.", "anchors": ["src/modssc/data_loader/cache.py: cache_lock"]}
{"id": "C15", "title": "A first-time dataset download is crash-safe", "statement": "If a download of a dataset that is not cached is interrupted at any step, a later load (cache lookup, then download if absent) returns the same dataset as an uninterrupted run and never a partial one.", "quantifier": "every crash point of the download sequence and every dataset content", "why_tests_cant": "Quantifies over crash points.", "anchors": ["src/modssc/data_loader/services/service.py: load_dataset, _download_and_store, _load_processed_or_purge", "src/modssc/data_loader/cache.py: is_cached"]}
{"id": "C16", "title": "A forced re-download is crash-safe", "statement": "If a forced re-download over an existing cache entry is interrupted at any step, a later ordinary load still returns a complete dataset.", "quantifier": "every crash point", "why_tests_cant": "Quantifies over crash points.", "anchors": ["src/modssc/data_loader/services/service.py: _download_and_store, _load_processed_or_purge"]}
{"id": "C17", "title": "Garbage collection keeps exactly the newest variant of every dataset", "statement": "gc_keep_latest deletes every cached variant except one per canonical uri, that one has the maximal created_at among that uri's variants, and the returned list is exactly the deleted fingerprints.", "quantifier": "every index content, including ties and equal uris", "why_tests_cant": "Quantifies over all index tables.", "anchors": ["src/modssc/data_loader/cache.py: gc_keep_latest, purge_fingerprint, index_delete"]}
{"id": "C18", "title": "Bulk download reports account for every dataset exactly once", "statement": "download_all_datasets places every selected catalogue key in exactly one of the report's outcome lists, the list matching what happened to the key; with ignore_missing_extras=False the first missing optional dependency aborts the call and no later key is touched.", "quantifier": "every catalogue selection, every pattern of cached entries and failures", "why_tests_cant": "Quantifies over failure patterns.", "anchors": ["src/modssc/data_loader/services/service.py: download_all_datasets, _select_catalog_keys"]}
{"id": "C19", "title": "Symmetrisation yields the symmetric graph of the chosen mode", "statement": "symmetrize_edges(or/mutual) returns a duplicate-free edge list whose edge set is closed under reversal and equals the union (or) or intersection (mutual) of the input edge set with its reverse; with weights, copies of a directed edge are merged to their largest weight, both directions of a pair carry the average of the two directed weights (the existing one when mode is or and there is one direction only), and self-loops keep their weight; symmetrising again changes nothing; mode none returns the input unchanged.", "quantifier": "every edge list over n nodes, with or without weights, duplicates and self-loops included", "why_tests_cant": "Edge multiplicity and weight merging must be right for all multigraphs.", "anchors": ["src/modssc/graph/construction/ops/symmetrize.py: symmetrize_edges"]}
{"id": "C20", "title": "Adding self-loops", "statement": "add_self_loops gives every node exactly one self-loop beyond none already present, leaves all other edges and weights unchanged and in order.", "quantifier": "every edge list, weight array and node count", "why_tests_cant": "Quantifies over edge lists.", "anchors": ["src/modssc/graph/construction/ops/self_loops.py: add_self_loops"]}
{"id": "C21", "title": "Random-walk normalisation is row-stochastic", "statement": "normalize_edge_weights(rw) scales the weights of each source node so that they sum to one whenever the node's total is positive, keeps zero for nodes without weight, and keeps the edge list; sym mode keeps symmetric weights symmetric.", "quantifier": "every weighted edge list (exact rational weights)", "why_tests_cant": "Quantifies over all graphs.", "anchors": ["src/modssc/graph/construction/ops/normalize.py: normalize_edge_weights"]}
{"id": "C22", "title": "Masks from indices are consistent", "statement": "masks_from_indices accepts exactly the calls whose node count is positive and whose indices are all in range, sets exactly the listed positions in masks of length n, and marks as unlabeled exactly the training nodes that are not labelled (without a labelled list, the nodes outside train).", "quantifier": "every node count and index lists", "why_tests_cant": "Quantifies over index lists.", "anchors": ["src/modssc/graph/masks.py: masks_from_indices"]}
{"id": "C23", "title": "kNN graph: out-degree, no self edges, nearest neighbours", "statement": "knn_edges_numpy gives every node exactly min(k, n-1) (or min(k,n) with include_self) distinct out-neighbours, never itself unless include_self, no non-neighbour strictly closer than a chosen one, and the result does not depend on chunk_size.", "quantifier": "every point set, distance table, k, chunk size and tie-breaking", "why_tests_cant": "Chunk boundaries and ties must be right for all sizes.", "anchors": ["src/modssc/graph/construction/backends/numpy_backend.py: knn_edges_numpy"]}
{"id": "C24", "title": "Resuming an interrupted kNN construction gives the same graph", "statement": "If knn_edges_numpy with a work directory is interrupted after any prefix of chunk files was written, running it again with resume returns exactly the edges of an uninterrupted run.", "quantifier": "every crash point, chunk size, and number of successive crashes", "why_tests_cant": "Quantifies over crash histories.", "anchors": ["src/modssc/graph/construction/backends/numpy_backend.py: knn_edges_numpy"]}
{"id": "C25", "title": "kNN out-degree bound holds for every backend", "statement": "For every backend a kNN graph built with include_self=False has out-degree at most k at every node.", "quantifier": "every point set including duplicate points, every neighbour order a backend may return", "why_tests_cant": "Fails only with duplicate points.", "anchors": ["src/modssc/graph/construction/backends/sklearn_backend.py: knn_edges_sklearn", "src/modssc/graph/construction/backends/faiss_backend.py"]}
{"id": "C26", "title": "Graph cache save/load round trip", "statement": "GraphCache.load after save returns the same node count, edges and weights, whether the edges are stored whole or in shards of any positive size.", "quantifier": "every graph, weight presence and shard size", "why_tests_cant": "Shard arithmetic must be right for all (E, shard size).", "anchors": ["src/modssc/graph/cache.py: GraphCache.save, GraphCache.load"]}
{"id": "C27", "title": "A crash while saving a graph never exposes a partial graph", "statement": "A GraphCache.save interrupted at any step never makes load return something other than the complete old or the complete new graph.", "quantifier": "every crash point, graph pair, shard sizes and deletion order", "why_tests_cant": "Crash points and directory iteration order.", "anchors": ["src/modssc/graph/cache.py: GraphCache.save, GraphCache.load, _clear"]}
{"id": "C28", "title": "Step and graph cache keys determine the cached value", "statement": "Two preprocessing runs (or feature-view requests) that share a cache key would compute the same value, so a cache hit never returns data of a different input.", "quantifier": "every pair of datasets and plans", "why_tests_cant": "Quantifies over pairs of inputs.", "anchors": ["src/modssc/preprocess/services/pipeline.py: preprocess, _dataset_fingerprint", "src/modssc/graph/featurization/api.py: graph_to_views", "src/modssc/graph/fingerprint.py: fingerprint_array"]}
{"id": "C29", "title": "Purging intermediate artifacts never removes one that is still needed", "statement": "With purge_unused_artifacts=True, every artifact consumed by a later step, and every final output the run returns, is still in the store when it is read, so the run gives the same result as without purging.", "quantifier": "every plan (list of steps with consumes/produces) and keep set", "why_tests_cant": "Quantifies over step sequences.", "anchors": ["src/modssc/preprocess/services/pipeline.py: preprocess, _build_purge_keep_sets, _purge_store, _final_keep_keys"]}
{"id": "C30", "title": "Grid search enumerates the Cartesian product exactly once", "statement": "Space.iter_grid yields exactly one trial per element of the Cartesian product of the leaf value lists, consecutively indexed from 0, each trial's parameters assigning to every leaf path one of its values and nothing else.", "quantifier": "every nested search space", "why_tests_cant": "Quantifies over nesting shapes and list lengths.", "anchors": ["src/modssc/hpo/space.py: Space.from_dict, Space.iter_grid, _walk, _assign"]}
{"id": "C31", "title": "Patch merging and flattening laws", "statement": "deep_merge(base, patch) returns patch's value at every leaf path of patch and base's value elsewhere, is idempotent in patch, has the empty patch as identity, and flatten_patch of a nested patch lists exactly its leaves.", "quantifier": "every pair of nested mappings", "why_tests_cant": "Quantifies over nested mappings.", "anchors": ["src/modssc/hpo/patching.py: deep_merge, flatten_patch"]}
{"id": "C32", "title": "Views select the columns they describe and complements partition the columns", "statement": "generate_views gives each view exactly the rows of the dataset restricted to a strictly ascending in-range column set; a random view has max(1, min(n, round(fraction*n))) columns and a complement view has exactly the columns its partner lacks; plans with fewer than two views, duplicate names, or a complement of a later view are rejected.", "quantifier": "every feature count, plan and random state", "why_tests_cant": "Quantifies over plans and widths.", "anchors": ["src/modssc/views/plan.py: ViewsPlan.validate", "src/modssc/views/services/service.py: _resolve_columns, generate_views"]}
{"id": "C33", "title": "Metrics are in [0,1], equal 1 exactly on perfect predictions, and ignore sample order", "statement": "accuracy, balanced accuracy and macro-F1 lie in [0,1]; accuracy is 1 iff all predictions equal the labels (and balanced accuracy likewise); all three are unchanged when samples are permuted together.", "quantifier": "every pair of label arrays of equal length", "why_tests_cant": "Quantifies over arrays and permutations.", "anchors": ["src/modssc/evaluation/metrics.py: accuracy, balanced_accuracy, macro_f1, _pred_indices_for_classes"]}
{"id": "C34", "title": "Structure-preserving augmentations preserve structure", "statement": "Token swap and word swap permute tokens (token swap leaves padding in place), word dropout returns a non-empty subsequence, token mask and feature dropout change exactly the drawn entries, edge dropout (edges of shape (2, E), or (E, 2) with E other than 2) returns a subsequence of the edges with weights still aligned, time shift rotates by at most the bound, horizontal flip is an involution, cutout fills exactly the drawn squares and crop shifts by at most the padding, reflecting the border; shapes never change.", "quantifier": "every input and every random outcome", "why_tests_cant": "Quantifies over random outcomes.", "anchors": ["src/modssc/data_augmentation/ops/text.py", "src/modssc/data_augmentation/ops/graph.py", "src/modssc/data_augmentation/ops/audio.py", "src/modssc/data_augmentation/ops/vision.py"]}
{"id": "C35", "title": "Augmentations are a function of the seed context", "statement": "Applying the same pipeline to the same sample in the same context twice gives the same output, for every backend.", "quantifier": "every op, context and global generator state", "why_tests_cant": "Hidden global state.", "anchors": ["src/modssc/data_augmentation/api.py: AugmentationPipeline", "src/modssc/data_augmentation/ops/tabular.py: SwapNoise"]}
{"id": "C36", "title": "Label propagation keeps labels clamped and rows normalised", "statement": "After any number of iterations label propagation's score matrix has the one-hot label on each labelled row, every entry non-negative, every row sum 0 or 1, and the reported iteration count and residual satisfy the stopping rule.", "quantifier": "every non-negative weighted graph, labelling, iteration bound and tolerance (exact arithmetic)", "why_tests_cant": "Invariant over unbounded iterations and graphs.", "anchors": ["src/modssc/transductive/methods/classic/label_propagation.py: label_propagation_numpy", "src/modssc/transductive/operators/clamp.py"]}
{"id": "C37", "title": "Label propagation accepts every valid dataset and ignores hidden labels", "statement": "On a dataset accepted by validate_node_dataset with at least one labelled node label propagation returns, and the result does not depend on the labels of unlabelled nodes.", "quantifier": "every valid dataset and every change of unlabelled labels", "why_tests_cant": "Relational property over pairs of inputs.", "anchors": ["src/modssc/transductive/methods/classic/label_propagation.py: label_propagation_numpy", "src/modssc/transductive/operators/clamp.py: labels_to_onehot"]}
{"id": "C38", "title": "Laplace learning is harmonic", "statement": "Laplace learning keeps labelled rows and gives every unlabelled node with positive degree the weighted average of its neighbours' rows, in every backend.", "quantifier": "every symmetric non-negative weighted graph, self-loops included", "why_tests_cant": "Quantifies over graphs; backend difference shows only with self-loops.", "anchors": ["src/modssc/transductive/methods/classic/laplace_learning.py"]}
{"id": "C39", "title": "Min-cut classification respects the labels and is optimal", "statement": "Given a maximum flow, graph min-cut labels every labelled node with its own class and its cut weight is minimal among all assignments that respect the labels.", "quantifier": "every capacity graph and labelled set, every maximum flow", "why_tests_cant": "Optimality quantifies over all assignments.", "anchors": ["src/modssc/transductive/methods/classic/graph_mincuts.py"]}
{"id": "C40", "title": "Conjugate gradient reports a true residual", "statement": "For a linear operator cg_solve maintains r = b - A x, so when it reports convergence the returned x satisfies ||b - A x|| <= tol (exact arithmetic), it performs at most max_iter iterations.", "quantifier": "every linear operator, right-hand side, tolerance and iteration bound", "why_tests_cant": "Invariant over unbounded iterations.", "anchors": ["src/modssc/transductive/solvers/cg.py", "src/modssc/transductive/backends/numpy_backend.py: cg_solve"]}
{"id": "C41", "title": "Self-training never loses, duplicates or relabels samples", "statement": "During self-training the multiset of labelled-plus-unlabelled rows is constant, the originally labelled rows and labels stay an unchanged prefix, each unlabelled row is pseudo-labelled at most once, at most max_new_labels are added per round, and the classifier is refitted at most max_iter+1 times.", "quantifier": "every classifier behaviour, score table, threshold, group structure and number of rounds", "why_tests_cant": "Invariant over rounds and arbitrary classifiers.", "anchors": ["src/modssc/inductive/methods/self_training.py: SelfTrainingMethod.fit, _select_candidates_numpy"]}
{"id": "C42", "title": "Confident-sample selection helpers", "statement": "select_confident returns indices whose confidence reaches the threshold, at most max_new of them, none less confident than a rejected one; select_top_per_class returns at most k per predicted class, each meeting the threshold, ascending and without duplicates.", "quantifier": "every score matrix, threshold and bound", "why_tests_cant": "Quantifies over score matrices.", "anchors": ["src/modssc/inductive/methods/helpers/classifier_bridge.py: select_confident, select_top_per_class"]}
{"id": "C43", "title": "The kNN classifier returns class distributions independent of batching", "statement": "NumpyKNNClassifier.predict_proba rows are non-negative and sum to one, depend only on the query row (not on batch_size), and predict returns a label seen in training.", "quantifier": "every training set, query set, k, weight scheme and batch size", "why_tests_cant": "Quantifies over batch sizes and data.", "anchors": ["src/modssc/supervised/backends/numpy/knn.py: NumpyKNNClassifier", "src/modssc/supervised/utils.py: encode_labels"]}
{"id": "C44", "title": "Labelling choices do not move the split", "statement": "Two inductive samples of one dataset drawn with the same seed whose plans differ only in the labelling part (and in the labelling stream) have the same train, val and test index sets.", "quantifier": "every dataset, policy, split and imbalance specification, every pair of labelling specifications and every random state", "why_tests_cant": "needs comparison of two runs for every pair of plans", "anchors": ["src/modssc/sampling/services/service.py:_sample_inductive"]}
{"id": "C45", "title": "Canonical JSON encoding is injective", "statement": "Two JSON values (None, booleans, integers, floats, strings of Unicode characters, lists, string-keyed dictionaries) have the same canonical encoding (sorted keys, compact separators) only if they are equal up to the order of dictionary keys, so fingerprints differ for different configurations unless the hash collides.", "quantifier": "every pair of JSON values of any depth", "why_tests_cant": "an encoding is checked on examples only; ambiguity needs all pairs of values", "anchors": ["src/modssc/sampling/fingerprint.py:stable_hash", "bench/utils/hashing.py:stable_json_dumps"]}
{"id": "C46", "title": "Per-item seeds of random walks and anchors are distinct streams", "statement": "The 32-bit seeds mixed from (seed, salt) are in the unsigned 32-bit range and two different (seed, salt) pairs do not systematically share a generator.", "quantifier": "every pair of (seed, salt) pairs", "why_tests_cant": "tests compare a handful of seeds", "anchors": ["src/modssc/utils/seed.py:mix_seed32", "src/modssc/graph/construction/schemes/anchor.py", "src/modssc/graph/featurization/views/struct.py"]}
{"id": "C47", "title": "A cached load returns what the first load returned", "statement": "If load_dataset returned a dataset, the next load_dataset of the same dataset is served from the cache and returns the same arrays, edges, masks and metadata.", "quantifier": "every dataset content, every prior cache state, every combination of force and download flags", "why_tests_cant": "needs the storage round trip for all datasets and all cache states", "anchors": ["src/modssc/data_loader/storage/files.py: FileStorage.save, FileStorage.load", "src/modssc/data_loader/storage/json.py: to_jsonable", "src/modssc/data_loader/services/service.py: load_dataset"]}
{"id": "C48", "title": "A built graph is a row-stochastic transition matrix", "statement": "build_graph with self_loops and rw normalisation (the default spec) always returns an artifact with in-range edges, one self-loop per node and outgoing weights that add up to one at every node, isolated nodes included, for any non-negative edge weights.", "quantifier": "every feature matrix and backend result (raw weighted edge list), every symmetrisation mode, exact rational weights", "why_tests_cant": "must hold for all raw edge lists, including ones that leave nodes isolated after mutual symmetrisation", "anchors": ["src/modssc/graph/construction/services/service.py: build_graph", "src/modssc/graph/artifacts.py: GraphArtifact"]}
{"id": "C49", "title": "Epsilon graph contains exactly the pairs within the radius", "statement": "epsilon_edges_numpy lists each ordered pair of different nodes (or also self pairs with include_self) at most once, lists it exactly when its finite distance is at most the radius, with that distance, is symmetric when the distances are, and does not depend on chunk_size.", "quantifier": "every distance table (nan and inf included), radius, number of nodes and chunk size", "why_tests_cant": "membership is a statement about all pairs, for all tables and chunkings", "anchors": ["src/modssc/graph/construction/backends/numpy_backend.py:epsilon_edges_numpy"]}
{"id": "C50", "title": "Anchor graph: bounded degree, edges only between nodes that share an anchor", "statement": "anchor_edges gives every node at most min(k, candidate_limit) distinct out-neighbours, never itself unless include_self, only nodes that share a nearest anchor, in order of exact distance, and when the candidate limit is not reached they are nearest among all such nodes.", "quantifier": "every distance function, anchor assignment, candidate limit, tie-breaking and sub-sampling choice", "why_tests_cant": "depends on arbitrary anchor assignments, ties and random sub-samples", "anchors": ["src/modssc/graph/construction/schemes/anchor.py:anchor_edges"]}
{"id": "C51", "title": "Cached graph construction is transparent, whatever was interrupted before", "statement": "build_graph(cache=True) returns exactly what build_graph(cache=False) returns (same graph or same error), after any sequence of killed cached builds of the same fingerprint, with or without resume; afterwards the entry loads to that graph and the next cached build writes nothing.", "quantifier": "every data set, spec (knn, numpy backend), sequence of killed attempts, crash points, shard sizes, temporary names and directory orders", "why_tests_cant": "ranges over all crash histories of the entry and its work directory", "anchors": ["src/modssc/graph/construction/services/service.py: build_graph", "src/modssc/graph/construction/builder.py: build_raw_edges", "src/modssc/graph/cache.py: GraphCache"]}
{"id": "C52", "title": "Random search draws every parameter within its declaration", "statement": "Space.iter_random(seed, n_trials) yields n_trials trials numbered from 0; each assigns to every declared parameter a value its declaration allows and nothing else; with the same seed a smaller n_trials gives a prefix; a non-positive n_trials is refused.", "quantifier": "every search space, every generator whose draws respect their bounds, every seed and number of trials", "why_tests_cant": "ranges over all spaces and generator states", "anchors": ["src/modssc/hpo/space.py: Space.iter_random", "src/modssc/hpo/samplers.py: sample_distribution, sample_from_values"]}
{"id": "C53", "title": "The selected trial is the best one, NaN last, ties to the earliest", "statement": "The benchmark's search reports a trial whose aggregated score no other trial beats, NaN counting as the worst score, and of several tied trials the one with the smallest index; with no trials it is an error.", "quantifier": "every list of trial scores, including NaN and infinities, both directions", "why_tests_cant": "depends on all score lists and on NaN comparison order", "anchors": ["bench/orchestrators/hpo.py: run_hpo, _is_better"]}
{"id": "C54", "title": "Making views leaves the dataset's metadata alone", "statement": "generate_views does not change the metadata of the dataset it is given, and the metadata of each view it returns lists that view only.", "quantifier": "every dataset (including one that is itself a view) and plan", "why_tests_cant": "aliasing between nested dictionaries shows only for datasets with a history", "anchors": ["src/modssc/views/services/service.py: generate_views"]}
{"id": "C55", "title": "A preprocessing plan is resolved to exactly the applicable steps", "statement": "resolve_plan runs a step iff it is enabled, its modality restriction (its own, else the catalogue's) admits the dataset's modality, and each field it requires is in the dataset or declared by an earlier step that is run; order and parameters are the plan's; it fails iff an enabled step is unknown.", "quantifier": "every plan, registry, modality and set of initial fields", "why_tests_cant": "Whether a step runs depends on all earlier decisions.", "anchors": ["src/modssc/preprocess/services/pipeline.py: resolve_plan"]}
{"id": "C56", "title": "Label spreading blends diffusion with the labels and stops when told", "statement": "Label spreading returns the iteration F <- a S F + (1-a) Y (rows scaled when asked) started from the labels and stopped after the first round that changes no entry by more than tol, or after max_iter rounds; it requires 0 <= a < 1; scores are non-negative, rows sum to 0 or 1 when scaled, and never to more than 1 under random-walk normalisation.", "quantifier": "every non-negative weighted graph, labelling, a, tolerance and round bound (exact arithmetic)", "why_tests_cant": "invariant over unbounded iterations and graphs", "anchors": ["src/modssc/transductive/methods/classic/label_spreading.py: label_spreading_numpy"]}
{"id": "C57", "title": "Pseudo-labelling moves rows once and labels only confident ones", "statement": "PseudoLabelMethod.fit calls the classifier's fit with the labelled rows followed by the rows taken in earlier rounds; each round takes the most confident rows reaching the threshold, at most max_new_labels, labelled by the current classifier; no row is taken twice, none is lost, fit is called at most max_iter + 1 times, and it stops early only when no row is left or fewer than min_new_labels are confident enough.", "quantifier": "every classifier, data set, threshold, bound and tie-breaking of the sort", "why_tests_cant": "depends on the whole history of an arbitrary classifier", "anchors": ["src/modssc/inductive/methods/pseudo_label.py: PseudoLabelMethod.fit", "src/modssc/inductive/methods/helpers/classifier_bridge.py: select_confident"]}
{"id": "C58", "title": "Co-training exchanges rows between the views without reusing any", "statement": "CoTrainingMethod.fit gives to each view the k best rows per class chosen by the other view's classifier with that classifier's labels; a row used in a round is used in no other round, both pools stay aligned, the labelled rows stay an unchanged prefix of every training set, each classifier is fitted at most max_iter + 1 times, and it stops early only when the pool is empty or neither view selects a row.", "quantifier": "every pair of classifiers and views, k, threshold and tie-breaking", "why_tests_cant": "depends on the whole history of two arbitrary classifiers", "anchors": ["src/modssc/inductive/methods/co_training.py: CoTrainingMethod.fit", "src/modssc/inductive/methods/helpers/classifier_bridge.py: select_top_per_class"]}
{"id": "C59", "title": "Tri-training labels rows only where the two other learners agree", "statement": "TriTrainingMethod.fit trains each learner on its bootstrap sample plus unlabelled rows it received; it receives a row at most once, only in a round where both other learners predict the same class with confidence reaching the threshold, labelled with that class, the most confident ones first when max_new_labels cuts; each learner is fitted at most max_iter + 1 times and it stops early only when no learner would get a row.", "quantifier": "every triple of classifiers, data set, bootstrap draw, threshold, bound and tie-breaking", "why_tests_cant": "depends on the joint history of three arbitrary classifiers", "anchors": ["src/modssc/inductive/methods/tri_training.py: TriTrainingMethod.fit"]}
{"id": "C60", "title": "The wrappers' probabilities are distributions and their predictions the top class", "statement": "predict_proba of the wrapper methods returns one row per query, non-negative and summing to one, proportional to the (averaged) scores of the trained classifiers, columns in the order of the classes; predict returns the class whose combined score is largest.", "quantifier": "every set of classifiers, class sets and score matrices", "why_tests_cant": "must hold for all score matrices, including signed decision scores and learners that saw different classes", "anchors": ["src/modssc/inductive/methods/tri_training.py: predict_proba, predict", "src/modssc/inductive/methods/co_training.py: predict_proba, predict", "src/modssc/inductive/methods/pseudo_label.py: predict_proba"]}
{"id": "C61", "title": "Setred adds only proposed rows that pass the cut-edge test", "statement": "SetredMethod.fit grows the labelled set by rows of the pool, each at most once, labelled by the current classifier; a round proposes the most confident rows of every class in proportion to the class frequencies (shares add up to the bound and differ from the exact share by less than one), and keeps exactly those whose edges to differently labelled rows in the relative-neighbourhood or k-nearest-neighbour graph weigh no more than expected plus z standard deviations.", "quantifier": "every classifier, data set, pool draw, distance matrix, weighting and tie-breaking", "why_tests_cant": "history of an arbitrary classifier and all distance matrices", "anchors": ["src/modssc/inductive/methods/setred.py: SetredMethod.fit, _allocate_per_class, _select_candidates_by_class, _build_rng_graph_numpy, _build_knn_graph_numpy, _filter_setred_numpy"]}
{"id": "C62", "title": "Democratic co-learning teaches a learner only where it is outvoted", "statement": "DemocraticCoLearningMethod.fit gives a learner, in each round, exactly the rows it has not received on which a strict weighted majority of the learners contradicts it, labelled with the majority's label, if that raises the estimated value of its training set, and nothing otherwise; it stops after max_iter rounds or when no learner changes; it never fails for well-behaved classifiers; predict returns the class with the largest combined confidence, and the learners' common prediction when they agree.", "quantifier": "every set of at least three classifiers, data set, confidence intervals and weights", "why_tests_cant": "depends on the joint history of arbitrarily many arbitrary classifiers", "anchors": ["src/modssc/inductive/methods/democratic_co_learning.py: DemocraticCoLearningMethod.fit, predict_proba, predict"]}
{"id": "C63", "title": "S4VM never keeps a model that is worse on the labelled rows", "statement": "S4VMMethod.fit keeps, of the baseline and the candidates, the earliest one most accurate on the labelled rows; candidate i is trained on all rows, the unlabelled ones labelled by the baseline except that the labels of the round(min(flip_rate * (i+1), 1/2) * n) least confident ones are exchanged; anything but two classes is refused.", "quantifier": "every classifier, data set, number of candidates, flip rate and tie-breaking", "why_tests_cant": "ranges over all classifiers and candidate counts", "anchors": ["src/modssc/inductive/methods/s4vm.py: S4VMMethod.fit"]}
{"id": "C64", "title": "Labels survive encoding and default scores decode to the predictions", "statement": "encode_labels maps labels to positions in the sorted distinct labels so that indexing the classes with the codes gives the labels back and codes are ordered as the labels; the default predict_scores matrix has one row per prediction, sums to one and its largest column is the predicted class; two-column scores made from one decision value favour the second class exactly when the value is positive.", "quantifier": "every label list and prediction list over known classes", "why_tests_cant": "must hold for every label set, with gaps and negative labels", "anchors": ["src/modssc/supervised/utils.py: encode_labels, onehot", "src/modssc/supervised/base.py: BaseSupervisedClassifier.predict_scores", "src/modssc/supervised/backends/sklearn/common.py: decision_scores_float32"]}
{"id": "C65", "title": "create_classifier picks the first usable backend and never overrides parameters", "statement": "With backend 'auto' create_classifier builds the first preferred backend that is registered and whose optional dependency is importable, and fails iff there is none, naming the first choice's dependency; with a named backend it builds that one or fails iff it is unknown; the runtime's seed and n_jobs reach the constructor exactly when the caller gave none.", "quantifier": "every registry, set of installed dependencies and parameters", "why_tests_cant": "ranges over registries and environments", "anchors": ["src/modssc/supervised/api.py: create_classifier", "src/modssc/supervised/registry.py: get_spec, get_backend_spec"]}
{"id": "C66", "title": "A pipeline is built iff every step is known and fits the modality", "statement": "build_pipeline succeeds exactly when every step of the plan names an operation that can be made with its parameters and, if the plan has a modality, the operation's modality is that one or 'any'; the operations then run in plan order; otherwise the error is that of the first offending step.", "quantifier": "every plan, registry and modality", "why_tests_cant": "ranges over all plans and registries", "anchors": ["src/modssc/data_augmentation/api.py: build_pipeline"]}
{"id": "C67", "title": "Resource limits bound every limited setting and touch nothing else", "statement": "apply_limits lowers a batch size, chunk size or sample count to its limit exactly when the integer it stands for is above it, writes the sample and chunk limits down when the setting is absent, leaves every other place of the configuration as it was, reports exactly the settings that changed (each once), and applied a second time changes and reports nothing; the limits are the configuration's own, else the profile's, and profile 'auto' is refused in benchmark mode.", "quantifier": "every nested configuration, with arbitrary values and any number of steps and views", "why_tests_cant": "ranges over all nested configurations; a missed list element or an unrelated setting changed shows only on some shapes", "anchors": ["bench/limits.py: apply_limits, resolve_limits"]}
{"id": "C68", "title": "A seed sweep changes the seeds and the name only", "statement": "apply_global_seed sets run.seed and the seed of every configured section (sampling, preprocess, views, graph, augmentation, search), removes run.seeds, sets run.name, and keeps every other place of the configuration; runs with different seeds get different names.", "quantifier": "every nested configuration, seed and run name", "why_tests_cant": "ranges over all nested configurations", "anchors": ["bench/seed_sweep.py: apply_global_seed, sweep_run_name"]}
{"id": "C69", "title": "Row selection returns exactly the asked-for rows", "statement": "select_rows returns the rows with the given numbers in the given order, succeeds exactly when all of them exist and never counts from the end; on graph data it cuts every array with a row for each node, keeps other fields, and its edges join, under the new numbers, exactly the rows that were joined before.", "quantifier": "every data set, index list and graph", "why_tests_cant": "ranges over all index lists and graphs", "anchors": ["bench/orchestrators/slicing.py: select_rows"]}
{"id": "C70", "title": "An inductive benchmark trains on the training rows and scores each split on its own rows", "statement": "With a validated sampling result the method is given exactly the labelled training rows with their labels and the unlabelled training rows, no validation or test row among them; the report has exactly the requested splits and each entry is the requested metrics of the predictions for that split's rows against those rows' labels (labels being column numbers), independently of the other splits; it always exists for known metrics.", "quantifier": "every data set, sampling result, method and list of splits and metrics", "why_tests_cant": "leakage or misalignment shows only for particular index sets", "anchors": ["bench/orchestrators/method_inductive.py: run", "bench/orchestrators/evaluation.py: evaluate_inductive"]}
{"id": "C71", "title": "A transductive benchmark numbers, masks and scores nodes consistently", "statement": "Test rows are numbered after the training rows; for a validated sampling result the masks mark exactly the nodes of each index set and are mutually consistent; a labelled node shows its label and every other node shows none; each reported split is scored on exactly the nodes that stand for its rows.", "quantifier": "every data set, sampling result, prediction and list of splits", "why_tests_cant": "an offset or mask error shows only for particular index sets", "anchors": ["bench/orchestrators/method_transductive.py: _build_masks_from_indices, run", "bench/orchestrators/evaluation.py: evaluate_transductive", "bench/main.py: _mask_map_from_sampling"]}
{"id": "C72", "title": "Preprocessing is fitted on the requested rows and never on the test set", "statement": "resolve_fit_indices returns exactly the rows of the named set (train, train_labeled, train_unlabeled or val), none of which is a test row, and refuses every other name; converting a graph sampling result to index sets yields a valid sampling result naming the same rows.", "quantifier": "every sampling result and setting", "why_tests_cant": "leakage must be excluded for every sampling result", "anchors": ["bench/orchestrators/preprocess.py: resolve_fit_indices", "bench/main.py: _graph_sampling_to_inductive"]}
{"id": "C73", "title": "Environment placeholders in a benchmark configuration are expanded everywhere or refused", "statement": "Loading a configuration replaces every $NAME and ${NAME} whose dollar does not follow another dollar or a backslash, in every text at any depth, by the environment's value, else the built-in default, once and without re-reading the inserted text; all other characters, keys, values and sizes are kept; loading fails exactly when some placeholder has no value, and when the root is neither a mapping nor empty.", "quantifier": "every nested configuration, text, environment and set of defaults", "why_tests_cant": "ranges over all texts and nesting shapes; adjacent or escaped dollars show only on particular texts", "anchors": ["bench/utils/io.py: load_yaml, _expand_env_vars, _expand_placeholders, _iter_placeholder_names, _resolve_env_var"]}
{"id": "C74", "title": "A run's directory is its own", "statement": "A run gets the first of NAME, NAME__r01, NAME__r02, ... that does not exist, makes it, and loses nothing that existed; runs started at the same time never share a directory and each of them gets one.", "quantifier": "every set of existing directories and every interleaving of several runs, with or without the change of name after a search", "why_tests_cant": "depends on the interleaving of several processes", "anchors": ["bench/context.py: next_available_run_dir, RunContext.ensure_dirs", "bench/main.py: _sync_ctx_run_identity"]}
{"id": "C75", "title": "Benchmark mode refuses every 'auto' device, backend or profile", "statement": "The preflight finds exactly the settings named device, backend, classifier_backend or profile, at any depth and inside lists, whose text is 'auto' up to capitals and surrounding blanks, and the run is refused exactly when there is one.", "quantifier": "every nested configuration", "why_tests_cant": "ranges over all nesting shapes", "anchors": ["bench/main.py: _scan_auto_entries, _benchmark_contract_preflight"]}
{"id": "C76", "title": "Seeds derived for different stages and trials come from different digests", "statement": "A stage's seed is a function of the run's seed and the stage's label only, different (seed, label) pairs hash different texts, different trials of a search get different labels, the seed is a 32-bit number, and an explicit seed is used as it is.", "quantifier": "every seed, label, trial and digest function", "why_tests_cant": "injectivity over all seeds and labels", "anchors": ["bench/utils/hashing.py: derive_seed", "bench/context.py: RunContext.seed_for"]}
{"id": "C77", "title": "A hyper-parameter search changes method parameters only and the best trial is what is run", "statement": "A search space is accepted only if every parameter it declares lies inside method.params; the configuration a trial is scored with has the chosen value at each declared place and the base's value at every other place; the trial kept is one that no other beats, the first in case of a tie; the final run uses the settings of that trial.", "quantifier": "every space, base configuration, objective, grid or random search", "why_tests_cant": "ranges over all nested configurations and search spaces", "anchors": ["bench/orchestrators/hpo.py: run_hpo, _validate_space_targets", "bench/main.py: _run_experiment_single"]}
{"id": "C78", "title": "A seed sweep runs every seed and its exit code tells whether one failed", "statement": "With neither benchmark mode nor fail_fast every seed is run, in order, whatever happens to the others, and the exit code is 0 exactly when none failed, else 1; otherwise the runs stop at the first failure with its exception; the summary is given the reports of exactly the runs that returned, in order, and is written iff there is one; --num-runs n means the seeds s, s+1, ..., s+n-1.", "quantifier": "every list of seeds and every behaviour of the runs", "why_tests_cant": "depends on which runs fail, in every combination", "anchors": ["bench/main.py: run_experiment"]}
{"id": "C79", "title": "The sweep summary gives each metric's statistics over the successful runs", "statement": "For every number some successful run reports (booleans excluded), at the same place of the summary: how many successful runs report it, their values in run order, mean, deviation, least and greatest value, and nothing else; the counts are those of the runs, and the status is success, partial_failure or failed according to whether all, some or none of them succeeded.", "quantifier": "every list of reports with arbitrary nested metrics", "why_tests_cant": "ranges over all nested reports", "anchors": ["bench/orchestrators/reporting.py: write_seed_sweep_summary, _iter_numeric_metric_leaves, _set_nested"]}
{"id": "C80", "title": "Every epoch of a deep method uses every labelled and unlabelled row", "statement": "A fit refuses empty data, a non-positive batch size or epoch count, and otherwise runs max_epochs epochs of as many steps as the larger side needs; every step has one non-empty batch of at most batch_size distinct rows per side, within an epoch every row of either side is used at least once and any two rows of a side equally often up to one, and a row always comes with its own label.", "quantifier": "every number of rows, batch size, number of steps and generator that returns permutations", "why_tests_cant": "ranges over all sizes, including ones where the last batch is short or the shorter side restarts", "anchors": ["src/modssc/inductive/methods/helpers/torch_support.py: num_batches, cycle_batch_indices, cycle_batches", "src/modssc/inductive/methods/fixmatch.py: FixMatchMethod.fit"]}
{"id": "C81", "title": "Batched prediction does not depend on the batch size", "statement": "If the model scores rows one by one in evaluation mode, predict_proba returns each row's probabilities in order, whatever the batch size, and leaves the model in the mode it was in.", "quantifier": "every model, table and batch size", "why_tests_cant": "ranges over all sizes and batch boundaries", "anchors": ["src/modssc/inductive/methods/helpers/torch_support.py: predict_proba_from_bundle"]}
{"id": "C82", "title": "Graph inputs are sliced to induced subgraphs and joined as disjoint unions", "statement": "Slicing a graph input keeps the chosen nodes and exactly the edges between them, each with its weight; joining graphs keeps every edge with its weight inside its own graph; the scores of a graph's nodes do not depend on the batch size.", "quantifier": "every graph, list of nodes and list of graphs, with or without weights", "why_tests_cant": "ranges over all graphs; misaligned weights show only for particular graphs", "anchors": ["src/modssc/inductive/methods/helpers/torch_support.py: slice_data, concat_data, predict_proba_from_bundle"]}
{"id": "C83", "title": "The FixMatch family trains on confident rows only, against their most probable class", "statement": "The loss of a step of FixMatch, DeFixMatch, UDA and Noisy Student is the average loss of the labelled rows plus lambda_u times the average loss of exactly those unlabelled rows whose weak view has a class of probability at least p_cutoff (0 if there is none), each against a class that is most probable for the weak view (or the sharpened distribution, which keeps the order of the classes); other rows have no influence; one call for all batches gives the same as separate calls; UDA's schedule stays between 1/classes and 1 and never falls; labels that are no class and tables of different size are refused.", "quantifier": "every batch of logits, cutoff, temperature, weight and loss function", "why_tests_cant": "ranges over all real-valued batches, including ones where no row or every row is confident", "anchors": ["src/modssc/inductive/methods/fixmatch.py: FixMatchMethod.fit", "src/modssc/inductive/methods/defixmatch.py: DeFixMatchMethod.fit", "src/modssc/inductive/methods/uda.py: UDAMethod.fit, _tsa_threshold", "src/modssc/inductive/methods/noisy_student.py: NoisyStudentMethod.fit", "src/modssc/inductive/methods/helpers/torch_support.py: sharpen_probs"]}
{"id": "C84", "title": "FlexMatch's threshold follows the classes' learning state", "statement": "In the first fit of a FlexMatch object a row takes part in a step exactly when some class has at least probability p_cutoff * a / (2 - a), where a is the number of pool rows whose last confident prediction so far is the row's predicted class, relative to the class with the most (rows never confident compete too when thresh_warmup is on); the threshold lies between 0 and p_cutoff and grows with a, so a row that reaches p_cutoff always takes part; the indices handed in must number rows of the pool without repetition.", "quantifier": "every history of batches, pool size, number of classes and cutoff", "why_tests_cant": "depends on the whole history of predictions", "anchors": ["src/modssc/inductive/methods/flexmatch.py: FlexMatchMethod.fit, _init_state, _update_classwise_acc, _get_idx_u"]}
{"id": "C85", "title": "FreeMatch's threshold follows the running confidence", "statement": "In the first fit of a FreeMatch object a row takes part in a step exactly when some class has at least the running confidence times the running probability of the row's class relative to the greatest one, averaged over all batches so far; the running class vectors are distributions, the running confidence stays between 1/classes and 1 (0.95 when clipped), the threshold never exceeds it and equals it for the class with the greatest running probability.", "quantifier": "every history of batches of distributions, momentum in [0,1], with and without quantile and clipping", "why_tests_cant": "depends on the whole history of predictions", "anchors": ["src/modssc/inductive/methods/free_match.py: FreeMatchMethod.fit, _init_state, _update_state"]}
{"id": "C86", "title": "Distribution alignment keeps probabilities and SoftMatch weights stay in (0,1]", "statement": "AdaMatch and SoftMatch scale each class of a row by its running target over its running predicted probability and renormalise: the result is a distribution, equal to the row when prediction and target agree; AdaMatch uses exactly the rows in which some class reaches p_cutoff times the average confidence on the labelled batch; SoftMatch's weight lies in (0,1], is 1 from the running mean upwards, grows with the probability of the pseudo-label, and the running mean stays among the probabilities seen.", "quantifier": "every history of labelled and unlabelled batches, momentum, target mode and weight parameters", "why_tests_cant": "depends on the whole history of predictions and on real-valued data", "anchors": ["src/modssc/inductive/methods/adamatch.py: AdaMatchMethod._update_alignment, fit", "src/modssc/inductive/methods/softmatch.py: SoftMatchMethod._dist_align, _update_stats, fit"]}
{"id": "C87", "title": "ADSH's class scores track the majority class", "statement": "After any number of epochs each class's score is positive and at most p_cutoff, and the majority class's is p_cutoff; an update puts another class's score at a probability of a row predicted as this class (capped by p_cutoff) such that at least rho*n - 1/2 of its n rows reach it and, below the cap, at most max(0, rho*n - 1/2) exceed it, where rho is the share of confident rows among those predicted as the majority class (1 if there is none); a row is used exactly when some class reaches its score, its pseudo-label is such a class, and a row that reaches p_cutoff is always used.", "quantifier": "every sequence of prediction tables, cutoff, number of classes and majority class", "why_tests_cant": "depends on counts, ranks and ties over all tables", "anchors": ["src/modssc/inductive/methods/adsh.py: _update_scores, ADSHMethod.fit"]}
{"id": "C88", "title": "Temporal Ensembling's targets are averages of earlier predictions", "statement": "Every step's loss of a Temporal Ensembling fit is the cross entropy on the labelled batch plus lambda_u times the warm-up factor times the mean squared difference between the mean of the current weak and strong predictions and the row's target; the target of a row in an epoch is the bias-corrected moving average (momentum alpha) of the last prediction each earlier epoch made for the row, and is a probability distribution; labels, views and sizes are checked first.", "quantifier": "every network (any function of step and rows), batch order, number of epochs, alpha and schedule", "why_tests_cant": "depends on the whole history of predictions", "anchors": ["src/modssc/inductive/methods/temporal_ensembling.py: TemporalEnsemblingMethod.fit"]}
{"id": "C89", "title": "The warm-up of the unlabelled loss", "statement": "In Temporal Ensembling, Mean Teacher, MixMatch, Pi-Model, VAT and Noisy Student the factor of the unlabelled loss at step t is min(1, t/m), where m is the given fraction of all steps rounded to the nearest integer (at least 1): it starts at 0, never falls, stays in [0,1], is 1 throughout when the fraction is 0, reaches 1 within the fit only if the fraction is below 1.", "quantifier": "every fraction, number of steps and step", "why_tests_cant": "all fractions and lengths including rounding ties", "anchors": ["src/modssc/inductive/methods/temporal_ensembling.py: TemporalEnsemblingMethod.fit", "src/modssc/inductive/methods/mean_teacher.py: MeanTeacherMethod.fit", "src/modssc/inductive/methods/mixmatch.py: MixMatchMethod.fit"]}
{"id": "C90", "title": "Mean Teacher's teacher is the moving average of the student", "statement": "In a Mean Teacher fit every weight of the teacher after t steps is the exponential moving average of the student's weight since the start of the fit (whatever weights the teacher had before), so it lies within the range of the student's values; each loss compares the student on the strong view with the teacher on the weak view of the same rows; predictions are made by the student; a teacher that shares the student or differs in shape or device is refused.", "quantifier": "every network, sequence of student weights, decay in [0,1], batch order and number of steps", "why_tests_cant": "depends on the whole history of weights", "anchors": ["src/modssc/inductive/methods/mean_teacher.py: MeanTeacherMethod.fit, _init_teacher, _update_teacher, _check_teacher"]}
{"id": "C91", "title": "MixMatch mixes inputs and targets consistently", "statement": "In a MixMatch step every row of labelled, weak and strong inputs is mixed with one row of the joint batch by one weight of at least one half for itself, the partners forming a permutation, and its target with the same partner and weight; both views of an unlabelled row share one target, the sharpened mean of their predictions; the loss is the soft cross entropy of the labelled part plus the weighted mean squared error of the rest; targets stay distributions and a labelled row keeps at least half of its own class; with alpha <= 0 nothing is mixed.", "quantifier": "every batch, network, draw of weights and permutation", "why_tests_cant": "all random draws and real-valued data", "anchors": ["src/modssc/inductive/methods/mixmatch.py: _mixup, MixMatchMethod.fit"]}
{"id": "C92", "title": "CoMatch's memory holds the newest rows and its pseudo-labels are distributions", "statement": "CoMatch's memory bank after any number of steps holds exactly the newest queue_size rows added (each step adds its unlabelled rows with their aligned probabilities, then its labelled rows with their labels), in some order; aligned, remembered and memory-smoothed pseudo-labels are probability distributions in every step of a fit.", "quantifier": "every sequence of batches of any size, every bank size, network and schedule", "why_tests_cant": "the ring wraps around at positions that depend on the whole history", "anchors": ["src/modssc/inductive/methods/comatch.py: CoMatchMethod._update_memory, _memory_smooth, _dist_align, fit"]}
{"id": "C93", "title": "CoMatch's graph and objective", "statement": "In a CoMatch step every row's links in the pseudo-label graph are non-negative and sum to 1, its link to itself is its strongest, and two rows are linked only if the inner product of their pseudo-labels reaches the threshold, and then in both directions. Every step's loss is the cross entropy of the labelled batch, plus lambda_u times the masked cross entropy of the first strong view against the pseudo-labels (weak probabilities, aligned with the mean of the last da_len batch means and smoothed with the memory of the steps before), plus lambda_c times the contrastive loss of the two strong views against the graph; invalid numbers and sizes are refused first.", "quantifier": "every batch, network, threshold, memory size, hard or soft labels, and any number of steps", "why_tests_cant": "depends on the whole history of predictions and on real-valued data", "anchors": ["src/modssc/inductive/methods/comatch.py: _build_pseudo_graph, _contrastive_loss, CoMatchMethod.fit"]}
{"id": "C94", "title": "Tri-Net trains each head on what the two others agree on", "statement": "Tri-Net first trains each of its three heads on its own smeared labels (distributions in which noise only adds to the other classes). In every later pool round head v is trained on all labelled rows and on exactly those rows of the round's pool for which the two other heads, in the state right before, predict the same class with averaged confidence at or above the round's threshold, and which stay so under the requested noisy passes (at most drop_fraction of the passes differ); each with the agreed class, each pool row at most once. Every epoch uses every example exactly once. A fit with valid arguments either succeeds or reports a head whose number of outputs is not the number of classes.", "quantifier": "every network, pool, threshold, number of rounds, passes and epochs, every batch size and seed", "why_tests_cant": "who labels what depends on the whole chain of network states", "anchors": ["src/modssc/inductive/methods/trinet.py: _output_smearing, TriNetMethod._label_unlabeled, _des_filter, _train_head, fit"]}
{"id": "C95", "title": "Tri-Net's rounds follow the schedule", "statement": "A Tri-Net fit runs exactly max_rounds rounds. Each round is either a labelled-only tuning, when its number is a multiple of the interval and the pool has reached the whole unlabelled set, or a pool round on a pool of min(pool_base * 2^t, number of unlabelled rows) distinct unlabelled rows. Thresholds of pool rounds lie in [0, 1]; they drop by sigma_decay for every tuning done, are lowered by sigma_os in the first round and in the round after a tuning, and between two rounds of the same kind never rise.", "quantifier": "every configuration, number of rounds and unlabelled set", "why_tests_cant": "the threshold and the kind of a round depend on all rounds before", "anchors": ["src/modssc/inductive/methods/trinet.py: TriNetMethod.fit"]}
{"id": "C96", "title": "Tri-Net predicts the mean of its heads", "statement": "After a fit, Tri-Net's prediction for each row is the mean of the three heads' softmax probabilities, a probability distribution with one entry per class, in the order of the rows and whatever the batch size. Before a fit, prediction is refused; heads that disagree on the number of outputs are reported.", "quantifier": "every network, input and batch size", "why_tests_cant": "rows and batch sizes are unbounded", "anchors": ["src/modssc/inductive/methods/trinet.py: TriNetMethod.predict_proba"]}
{"id": "C97", "title": "Meta Pseudo Labels: what teacher and student follow", "statement": "A Meta Pseudo Labels fit refuses a teacher and a student that share parameters, out-of-range numbers, missing rows and labels outside the classes. Otherwise at every step the student follows the cross entropy against the teacher's predictions for the strongly augmented rows of the batch, and the teacher follows its (smoothed) labelled cross entropy, plus uda_weight times the consistency loss averaged over exactly the rows whose sharpened weak prediction reaches the threshold, plus mpl_weight times the entropy of its strong predictions times the amount by which the student's change of labelled loss exceeds its running average.", "quantifier": "every pair of networks, data set, configuration, number of epochs, batch size and seed", "why_tests_cant": "the running average depends on all earlier steps, and the objective on which rows are confident", "anchors": ["src/modssc/inductive/methods/meta_pseudo_labels.py: MetaPseudoLabelsMethod.fit, _label_smoothed_ce, MetaPseudoLabelsMethod._uda_loss", "src/modssc/inductive/methods/helpers/torch_support.py: cycle_batches"]}
{"id": "C98", "title": "Deep Co-Training: paired batches, attacks, objective and prediction", "statement": "A Deep Co-Training fit with valid arguments never fails on batch sizes: in each epoch the two labelled streams and the unlabelled stream use their rows evenly, and the two labelled batches of a step always have the same size. The loss is the sum of the two labelled cross entropies, lambda_cot times the Jensen-Shannon disagreement of the networks on the unlabelled rows, and lambda_dif times the cross entropies of each network, on the rows attacked for the other, against the other's clean predictions. An attack moves every input value by adv_eps along the sign of its gradient and then into the clip range, labelled rows with their label and the others with the network's own class; a value inside the clip range moves by at most adv_eps. Predictions are the mean of the two softmaxes, in row order, whatever the batch size.", "quantifier": "every pair of networks, data set, configuration, number of epochs, batch size and seed", "why_tests_cant": "that batch sizes agree depends on the relation of three independent permutations over all epochs", "anchors": ["src/modssc/inductive/methods/deep_co_training.py: DeepCoTrainingMethod.fit, predict_proba, _fgsm_adversarial, _js_divergence"]}
{"id": "C99", "title": "Pi-Model and VAT: what the unlabelled loss compares", "statement": "At every step of a Pi-Model fit the loss is the cross entropy of the labelled batch plus lambda_u times the warm-up factor times the mean square difference of the two predictions for the same unlabelled rows. At every step of a VAT fit it is the cross entropy plus lambda_u times the warm-up factor times the mean divergence between the clean predictions and those under a perturbation, found by num_iters gradient steps from random directions, each trial of length xi, the last stretched to length eps. Labels outside the classes never pass.", "quantifier": "every network, gradient, data set, configuration, batch size and seed", "why_tests_cant": "the perturbation is the result of an iteration of any length over arbitrary gradients", "anchors": ["src/modssc/inductive/methods/pi_model.py: PiModelMethod.fit", "src/modssc/inductive/methods/vat.py: VATMethod.fit, VATMethod._vat_loss, _l2_normalize"]}
{"id": "C100", "title": "Lazy random walk: the sign of the solution", "statement": "A lazy random walk fit returns exactly when 0 < alpha < 1, the sizes fit, some node is labelled, there are two classes and no node is isolated: the system it solves is never singular. Its prediction is then the sign of the one solution of f = s + alpha D^(-1/2) W D^(-1/2) f, where s is +1 on nodes labelled with the larger class, -1 on the smaller, 0 elsewhere, and W is the symmetrised affinity without self-loops. In a part of the graph holding labels of one class only, every node joined to a label gets that class. Column c of the scores belongs to class c, and labels of unlabelled nodes have no influence.", "quantifier": "every graph with non-negative weights, labelling, mask and alpha", "why_tests_cant": "the non-singularity and the sign of the solution depend on the whole graph", "anchors": ["src/modssc/transductive/methods/classic/lazy_random_walk.py: lazy_random_walk_numpy, LazyRandomWalkMethod", "src/modssc/transductive/methods/classic/common.py: build_affinity_matrix"]}
{"id": "C101", "title": "Dynamic label propagation: rounds, clamped labels, non-negative scores", "statement": "A dynamic label propagation fit returns exactly when k >= 1, alpha >= 0, the sizes fit, some node is labelled and no node is isolated. It runs max_iter rounds: labels move along the current transition matrix, labelled rows are put back, and the transition matrix is diffused over the k largest steps of each node together with the similarity of the current labels, plus lambda on the diagonal. The reported residual is the largest change of the last round. Labelled rows keep their label exactly, scores are non-negative when lambda is, and labels of unlabelled nodes decide only how many columns of zeros there are. Every row of scores is a distribution.", "quantifier": "every graph, labelling, mask, selection of the largest entries, k, alpha, lambda and number of rounds", "why_tests_cant": "an invariant over an unbounded number of rounds in which the transition matrix itself changes", "anchors": ["src/modssc/transductive/methods/classic/dynamic_label_propagation.py: dynamic_label_propagation_numpy, DynamicLabelPropagationMethod"]}
{"id": "C102", "title": "Poisson learning: a solved system with balanced sources", "statement": "A Poisson learning fit returns exactly when the graph is valid, the sizes fit, some node is labelled and every label is below the number of different shown labels. The sources of each class sum to 0, the reported residual is the true squared one of the worst class, and at most max_iter rounds run. On an undirected graph with the symmetric Laplacian and positive eps the system has exactly one solution, max_iter >= n rounds bring the residual within tol, and the scores are within tol/eps of the solution. Hidden labels never change the scores of a fit that returns. With laplacian_kind rw the same holds, the scores are class distributions, and hidden labels never make a fit fail.", "quantifier": "every graph, labelling, mask and configuration", "why_tests_cant": "convergence and the distance to the solution are statements about every linear system the method builds", "anchors": ["src/modssc/transductive/methods/pde/poisson_learning.py: poisson_learning_numpy, _build_sources, PoissonLearningMethod", "src/modssc/transductive/operators/laplacian.py: laplacian_matvec_numpy", "src/modssc/transductive/solvers/cg.py: cg_solve_numpy"]}
{"id": "C103", "title": "Poisson MBO: rounds, one class per node, balance", "statement": "A Poisson MBO fit returns exactly when the graph is valid, the sizes fit, every class is shown, a given b is usable and some edge has weight. It runs T Poisson rounds, scales the columns, then outer rounds of inner diffusion steps, volume corrections clipped to [smin, smax] and a projection to the best class; the reported iterations and residual are those of this schedule. After an outer round every row is exactly one class. Without outer rounds the scores of each class, weighted by the total strength of the nodes, sum to 0 when no labelled node is isolated. Hidden labels never change a result unless b_strategy is true. They never matter otherwise, and labelled nodes keep their class.", "quantifier": "every graph, labelling, mask, argmax and configuration", "why_tests_cant": "an invariant over any number of rounds of any schedule", "anchors": ["src/modssc/transductive/methods/pde/poisson_mbo.py: poisson_mbo_numpy, _symmetrize_edges, _proj_vertices, _build_b_matrix, _build_b_prior, PoissonMBOMethod"]}
{"id": "C104", "title": "Graph preparation for the neural methods", "statement": "A data set is prepared exactly when features, labels, masks, edges and weights fit together, a train mask exists and the non-negative labels are contiguous. Features, labels and masks pass through. With added loops there is one edge per pair, duplicates summed, and a loop on every node; without, the edges stay as given. What a node takes from another is the summed weight, plus 1 for the loop, divided by the total arriving (rw) or scaled at both ends (sym). With rw and non-negative weights every row is non-negative and sums to 1; sym keeps symmetry. Rows stay bounded by 1 for every accepted data set.", "quantifier": "every node data set, with or without loops, weights and masks", "why_tests_cant": "the operator is a sum over arbitrary multigraphs", "anchors": ["src/modssc/transductive/methods/gnn/common.py: coalesce_edges, add_self_loops_coalesce, normalize_edge_weight, prepare_data"]}
{"id": "C105", "title": "How far the graph networks look, and what propagation does", "statement": "The output of a node depends only on the features of nodes with a path to it of at most K edges of the given graph: K for SGC, GRAND and APPNP, 2 for GCN and GraphSAGE, 2K for ChebNet, the number of layers for GCNII, 1 for a GAT layer, whatever the weights of the network. With rw weights, propagation keeps every column between its smallest and largest value, and APPNP approaches the one fixed point of personalised propagation by a factor 1 - alpha per round. Attention is positive and sums to 1 over the edges arriving at a node, up to 1e-16. The same bounds hold under sym normalisation.", "quantifier": "every graph, feature table, network weights, depth and alpha", "why_tests_cant": "locality is a statement about pairs of inputs that differ anywhere outside a neighbourhood, for any depth", "anchors": ["src/modssc/transductive/methods/gnn/sgc.py: _propagate_features", "src/modssc/transductive/methods/gnn/appnp.py: _APPNPNet.forward", "src/modssc/transductive/methods/gnn/gcn.py", "src/modssc/transductive/methods/gnn/graphsage.py", "src/modssc/transductive/methods/gnn/chebnet.py", "src/modssc/transductive/methods/gnn/gcnii.py", "src/modssc/transductive/methods/gnn/gat.py: _edge_softmax"]}
{"id": "C106", "title": "Early stopping of the graph networks", "statement": "Every epoch is one step on the training nodes. Without validation nodes all epochs run and the last weights stay; with them, training ends at the first epoch with patience epochs since the best one (or at max_epochs), and the weights of the best epoch are put back. When no loss is NaN the kept loss is within 1e-9 of the lowest and below all earlier ones. GRAND does the same and never keeps a NaN. A fit returns exactly when the data set is accepted, max_epochs is positive and the labels of the training and validation nodes are classes (or -100). Labels outside those masks do not matter while the largest label stays. A run without epochs, with a NaN loss or without training nodes is refused, and hidden labels never matter.", "quantifier": "every step function, loss sequence, patience and number of epochs", "why_tests_cant": "an invariant of the loop over every history of losses", "anchors": ["src/modssc/transductive/methods/gnn/common.py: train_fullbatch", "src/modssc/transductive/methods/gnn/grand.py: GRANDMethod.fit"]}
{"id": "C107", "title": "What a graph network fit depends on", "statement": "The state of the global torch generator before a fit matters only through the initial weights, and the generator ends in the same state. SGC on its own data set answers with the softmax of the linear layer on the propagated features. As long as nothing is changed in place, the cached preparation equals a fresh one over every sequence of calls. The seed determines the model, edits of the masks are seen, and predict_proba uses the features it is given.", "quantifier": "every generator, data set, sequence of cached calls and heap", "why_tests_cant": "a statement about every history of calls and earlier use of the generator", "anchors": ["src/modssc/transductive/methods/gnn/common.py: prepare_data_cached, _prep_cache_key, train_fullbatch, set_torch_seed", "src/modssc/transductive/methods/gnn/sgc.py: SGCMethod.predict_proba"]}
{"id": "C108", "title": "The learned vocabulary tokenizer", "statement": "Fitting succeeds exactly when the fit positions exist, and a fitted step transforms any texts when max_length is not negative; an unfitted one refuses. There is one row of max_length cells per text; the mask is 1 exactly on the words of the text and elsewhere mask and identifier are 0. When the padding and unknown words are different and occur in no text, a word of the fit texts with r words before it (more frequent, or as frequent and seen earlier) gets 2 + r if r < vocab_size - 2 and it occurs min_freq times, and every other word gets 1; identifiers are below the reported size, which is at most max(2, vocab_size), and words with identifiers of their own never share one. The vocabulary is a function of the texts at the fit positions; each row is a function of its text.", "quantifier": "every list of texts, fit selection, configuration and splitting of texts into words", "why_tests_cant": "ranking with ties and truncation over arbitrary word histories", "anchors": ["src/modssc/preprocess/steps/text/vocab_tokenizer.py: VocabTokenizerStep.fit, VocabTokenizerStep.transform, _tokenize"]}
{"id": "C109", "title": "The hashing tokenizer", "statement": "It returns exactly when max_length is not negative. There is one row of max_length cells per text; the mask is 1 exactly on the words, elsewhere mask and identifier are 0. The identifier of a word is at least 2, below vocab_size when vocab_size is at least 3, and the same wherever the word occurs, in every call with the same vocab_size. More than vocab_size - 2 different words cannot all have different identifiers, whatever the digest.", "quantifier": "every list of texts, configuration and digest function", "why_tests_cant": "the digest is arbitrary and the collision claim is about every set of words", "anchors": ["src/modssc/preprocess/steps/text/hash_tokenizer.py: HashTokenizerStep.transform, _hash_token"]}
{"id": "C110", "title": "One-hot labels", "statement": "On a vector of labels there is one row per label and one column per labelled class, ascending; is_labeled marks the labels different from unlabeled_value; a labelled row is 1 in the column of its class and 0 elsewhere, an unlabelled row is 0. Two labelled points have equal rows exactly when they have equal labels.", "quantifier": "every label vector and unlabelled value", "why_tests_cant": "any set of labels, with gaps and negatives", "anchors": ["src/modssc/preprocess/steps/labels/ensure_onehot.py: EnsureOneHotLabelsStep.transform"]}
{"id": "C111", "title": "One-hot encoding of tables", "statement": "Fitting succeeds exactly when the fit positions exist and looks at those rows only. A column is numeric when the fit rows have only numbers and missing values in it. The output has the numeric columns first, in order, as numbers (NaN when missing), then for each other column, in order, one indicator per value the fit rows have in it, set for the value of the row: exactly one is set for a value seen in the fit rows, none otherwise. A table of the same width is transformed exactly when it has a column, its numeric columns contain only numbers and missing values, and, if a column is categorical, it has a row and (unless unknown values are ignored) only known values; rows of the fit selection always are.", "quantifier": "every table, fit selection, notion of missing value and number", "why_tests_cant": "layout depends on the data; the claim is about all tables and rows outside the fit selection", "anchors": ["src/modssc/preprocess/steps/tabular/one_hot.py: TabularOneHotStep.fit, TabularOneHotStep.transform, _is_numeric_column, _to_numeric_column, _to_categorical_column"]}
{"id": "C112", "title": "Edge sparsification and attached weights", "statement": "A fraction outside (0, 1] is refused. On an edge list of shape (2, E), or (E, 2) with E different from 2, the result is the edges at some positions, in order, with the weights at the same positions; at least one edge is kept when there is one and all are when the fraction is 1. Attached weights: the present ones are kept, otherwise one per edge for both shapes.", "quantifier": "every edge list, weights, fraction and generator", "why_tests_cant": "the kept set is any outcome of the generator", "anchors": ["src/modssc/preprocess/steps/graph/edge_sparsify.py: EdgeSparsifyStep.transform", "src/modssc/preprocess/steps/graph/attach_edge_weight.py: AttachEdgeWeightStep.transform"]}
{"id": "C113", "title": "Channel reordering keeps the pixels", "statement": "For a batch of images with 1 to 4 channels (channels-last, or channels-first with a width not in 1..4), one such image (channels-first: not 2 channels), or a batch of grey images without channel axis (width not in 1..4, number not 1, 3 or 4), the result is in the requested layout with the same value for every image, pixel and channel; grey images get an explicit channel axis. Going to either layout and back gives the same images when both layouts are recognised. An unknown layout name, an array that is not 3 or 4 dimensional, or a batch without a plausible channel axis comes back unchanged.", "quantifier": "every array, size and requested layout", "why_tests_cant": "every size and position, including the sizes where the guess of the layout is ambiguous", "anchors": ["src/modssc/preprocess/steps/vision/channels_order.py: ChannelsOrderStep.transform", "src/modssc/preprocess/steps/vision/layout.py: prepare_image_array, infer_layout_3d, infer_layout_4d"]}
{"id": "C114", "title": "Requested number of channels", "statement": "With a requested number that is not negative, recognised images (as in C113) come back in their layout with exactly that many channels: the first channels are kept, a single channel is repeated, missing channels are zero.", "quantifier": "every array, size and requested number", "why_tests_cant": "every combination of sizes and layouts", "anchors": ["src/modssc/preprocess/steps/vision/ensure_num_channels.py: EnsureNumChannelsStep.transform"]}
{"id": "C115", "title": "Image resizing", "statement": "For recognised images with whole values from 0 to 255 and sizes that are not negative, resizing returns images of exactly the requested size in the same layout; each result pixel is an input pixel, at grid positions that stay inside the image, keep the order, start at the first and end at the last row and column, and leave a side alone that already has the requested size; channels and images are never mixed.", "quantifier": "every image batch and requested size", "why_tests_cant": "every pair of sizes; the grid is any monotone grid of floating point linspace", "anchors": ["src/modssc/preprocess/steps/vision/resize.py: ResizeStep.transform, _resize_nearest_nhwc"]}
{"id": "C116", "title": "Image normalisation", "statement": "With as many means and deviations as channels, each value of a recognised image becomes (value - mean of its channel) / deviation of its channel, same size and layout. It returns exactly when there are as many deviations as means and the number equals the number of channels or one of the two is 1.", "quantifier": "every array, means and deviations", "why_tests_cant": "every size and layout", "anchors": ["src/modssc/preprocess/steps/vision/normalize.py: NormalizeStep.transform"]}
{"id": "C117", "title": "Squeezing and flattening", "statement": "Squeezing an axis (counted from either end) of a four dimensional array removes it when it has length 1 and leaves the array alone otherwise; other arrays are unchanged; an axis that does not exist raises IndexError. Flattening an array with at least one row gives one row per row whose columns are the cells of that row, each once, with the last axis moving fastest; scalars and object arrays are refused.", "quantifier": "every array", "why_tests_cant": "every shape and index", "anchors": ["src/modssc/preprocess/steps/vision/squeeze.py: SqueezeStep.transform", "src/modssc/preprocess/steps/core/ensure_2d.py: Ensure2DStep.transform"]}
{"id": "C118", "title": "Principal components", "statement": "Fitting succeeds exactly when an array exists (features.X, otherwise raw.X) and the selection is not empty and in range, and depends on the selected rows and the width only. Transforming works row by row, whatever the number of rows: a missing cell is replaced by the average known value of its column in the fit rows, and the max(1, min(n_components, fit rows, width)) coordinates are inner products with the components, seen from the middle of the fit rows when centred. No two rows get farther apart. On the fit rows distances are kept when n_components is large enough, coordinates are uncorrelated with decreasing spread, add up to 0 when centred, and no direction orthogonal to the earlier components has a larger spread than the next one. A row without known cell gets coordinates 0 when centred.", "quantifier": "every array with missing cells, fit selection, number of components, and any singular value decomposition", "why_tests_cant": "geometric facts about every matrix, and chunked processing of any number of rows", "anchors": ["src/modssc/preprocess/steps/core/pca.py: PcaStep.fit, PcaStep.transform", "src/modssc/preprocess/steps/base.py: get_X, fit_subset"]}
{"id": "C119", "title": "Whitening", "statement": "Fitting succeeds exactly when the images have a shape, the selection is not empty and in range, and an image has at most max_features cells; transforming then succeeds exactly on at least one image with as many cells. The fit images come out with average 0 and variance at most 1 in every direction, and at least v / (v + eps) when the input varies by at least v in every direction (so exactly 1 for eps 0); no image is turned to the opposite side of the average. Each output image depends on its input image and the fitted state only.", "quantifier": "every set of images, eps that is not negative, and any eigenvalue decomposition", "why_tests_cant": "a statement about every direction and every covariance", "anchors": ["src/modssc/preprocess/steps/vision/zca_whitening.py: ZcaWhiteningStep.fit, ZcaWhiteningStep.transform"]}
{"id": "C120", "title": "Random projection", "statement": "Fitting succeeds exactly when n_components is positive and depends on the generator, the width and n_components only, never on the values. The projection has exactly n_components columns, acts row by row, and is linear: a row that is a combination of two others is sent to the same combination.", "quantifier": "every array, generator and number of components", "why_tests_cant": "linearity is about all rows and all coefficients", "anchors": ["src/modssc/preprocess/steps/core/random_projection.py: RandomProjectionStep.fit, RandomProjectionStep.transform"]}
{"id": "C121", "title": "Graph coarsening of H-GCN", "statement": "fit refuses an even depth, a depth below 3 and non-positive sizes. Otherwise it builds (num_layers - 1) / 2 coarsenings. Each puts every node of its level in exactly one group of one or two nodes: two nodes with the same neighbours, or a node with the free neighbour of highest score (ties to the smaller index), or a node without free neighbours. The weight between two groups is what the edges between their members weigh together and a group weighs what its members weigh, so that at every level the node weights add up to the number of nodes, all within the size of the weight embedding, the edges weigh what the edges of the first level weigh, and symmetry is kept. The first level has the summed weights of parallel edges, the larger direction when symmetrized, and no self-loops. Pooling adds the rows of the members of a group, unpooling copies the row of the group to them.", "quantifier": "every edge list, number of nodes, depth and score function", "why_tests_cant": "a partition must hold for every graph and at every level", "anchors": ["src/modssc/transductive/methods/gnn/h_gcn.py: HGCNMethod.fit, _coarsen_graph, _build_dense_adjacency"]}
{"id": "C122", "title": "p-Laplace learning", "statement": "p-Laplace learning returns a result exactly when p is at least 2, the graph is valid, every class up to the largest label in y labels a labelled node, and an edge leads from a labelled to an unlabelled node if there is one. The table has one row per node: a labelled node keeps its one-hot label, every other row is a probability distribution that orders the classes as the scores do. On a symmetrised graph with non-negative weights the scores of a class solve the plain Laplace problem with the labels as boundary, up to the tolerance of conjugate gradient, and for p above 2 follow Newton's method until a round changes nothing by more than tol; iterations and residual reported are the largest over the classes. Solved exactly, scores lie between 0 and 1, are the only solution when p is 2, and solve the p-Laplace equation when the last round changed nothing. An unlabelled node that no label reaches gets the same probability for every class. Hidden labels that do not raise the number of classes never change a result.", "quantifier": "every graph, weights, labels, mask and specification", "why_tests_cant": "convergence, a maximum principle and reachability must hold for every graph", "anchors": ["src/modssc/transductive/methods/pde/p_laplace_learning.py: p_laplace_learning_numpy, PLaplaceLearningMethod.fit"]}
{"id": "C123", "title": "Diffusion view of a graph", "statement": "With scipy, the diffusion view is the table obtained from X by the documented recurrence, repeated the asked number of times: each node takes (1 - alpha) times the weighted mean over the ends of its outgoing edges plus alpha times its own features. With non-negative weights and alpha in [0, 1] no value leaves the range of its column (0 included where a node has next to no outgoing weight), each step brings the table closer to the stationary solution by the factor 1 - alpha, and the value of a node depends only on nodes within that many edges. alpha = 1 or no steps return X; a node without outgoing edges ends at alpha times its features. Without scipy the result is the same when no edge occurs twice.", "quantifier": "all node features, edge lists with weights, alphas and numbers of steps", "why_tests_cant": "a test diffuses one small graph; ranges, locality and convergence concern every graph and number of steps", "anchors": ["src/modssc/graph/featurization/views/diffusion.py:diffusion_view", "src/modssc/graph/featurization/ops/adjacency.py:adjacency_from_edge_index"]}
{"id": "C124", "title": "Structural view of a graph", "statement": "For a spec with positive p and q the structural view takes the asked number of walks of the asked length from every node, each following edges or staying at a node without outgoing edges; node2vec draws the next node with probabilities proportional to the documented biases. The table of positive pointwise mutual information of nodes shown within the window is exactly the one of the definition, symmetric, non-negative, and zero for nodes that no common start leads to. The coordinates of a node are its row along the leading singular vectors, then zeros, and keep all inner products of rows when there are at least as many coordinates as nodes. A view is returned for every graph when the walks have positive length.", "quantifier": "all edge lists, numbers of nodes, walk parameters and random generators", "why_tests_cant": "a test looks at one seed and one graph; the walks range over every generator and graph", "anchors": ["src/modssc/graph/featurization/views/struct.py:struct_embeddings", "src/modssc/graph/featurization/views/struct.py:_cooccurrence_counts", "src/modssc/graph/featurization/views/struct.py:_iter_random_walks"]}
{"id": "C125", "title": "Graph specifications", "statement": "A graph specification written with to_dict is read back by from_dict as it was, so different specifications have different dictionaries; from_dict depends only on the documented keys; validate accepts exactly the documented combinations, a NaN passing every positivity check; a missing key of a featurizer stands for its default. With validated weights compute_edge_weights gives one weight per distance by the documented formula: 1, 1 - d, or a heat weight in (0, 1] that is 1 at distance 0 and falls with the distance.", "quantifier": "all specifications, dictionaries and distances", "why_tests_cant": "a test writes and reads a few specifications; the round trip and the checks concern all of them", "anchors": ["src/modssc/graph/specs.py:GraphBuilderSpec", "src/modssc/graph/specs.py:GraphFeaturizerSpec", "src/modssc/graph/specs.py:GraphWeightsSpec", "src/modssc/graph/construction/ops/weights.py:compute_edge_weights"]}
{"id": "C126", "title": "Transductive support vector machine", "statement": "A fit returns exactly for a valid dataset with a training mask, at least one labelled node and two classes (of the labelled nodes if those are two, otherwise of all labels), unless the batch size is 0. For a positive batch size the machine comes from training on the labelled rows and then, round by round, on the labelled rows repeated to weigh C_l and on the guesses for the unlabelled rows, with the penalty growing tenfold from 1/1000 up to C_u_max; every epoch goes once over all rows, and every step goes against a subgradient of the regularised hinge loss of the violated rows of its batch. With lr * l2 <= 1 the weights never leave a box given by the initial weights, the features and the penalties. With both classes among the labelled nodes neither hidden labels, metadata nor the graph have any effect. With balance and two or more unlabelled nodes both signs are guessed. Predictions are two positive shares that add up to 1, the second at least a half exactly when the decision function is not negative.", "quantifier": "all datasets, hyperparameters, permutations and initial weights", "why_tests_cant": "a test fits one seed on a few points; the training invariants concern every dataset, order of batches and number of rounds", "anchors": ["src/modssc/transductive/methods/classic/tsvm.py:TSVMMethod", "src/modssc/transductive/methods/classic/tsvm.py:_LinearSVM", "src/modssc/transductive/methods/classic/tsvm.py:_encode_binary"]}
{"id": "C127", "title": "Method registry", "statement": "A method registration is accepted exactly when the id is not empty, the path has a colon, the status is known and the id does not belong to another path; an accepted one sets that id and no other, and no later call of any kind changes the path of an id. After any history a listing that answers is alphabetical, names exactly the registered methods (on request only those not planned) and contains every built-in method. Listings and look-ups answer exactly as long as no built-in id belongs to another path; from then on they raise ValueError for ever. Registering the built-in methods again changes nothing. A look-up imports the class named by the registered path; an unknown id is a KeyError. Both shipped lists are consistent.", "quantifier": "all registries, histories of calls and lists of built-in methods", "why_tests_cant": "a test registers one method in a fresh process; the claims concern every history of registrations, listings and look-ups", "anchors": ["src/modssc/utils/registry.py:register_method_ref", "src/modssc/utils/registry.py:available_method_ids", "src/modssc/utils/registry.py:load_method_class", "src/modssc/inductive/registry.py:register_builtin_methods", "src/modssc/transductive/registry.py:register_builtin_methods"]}
{"id": "C128", "title": "Classifier registry", "statement": "A registered classifier keeps its description, its preferred backends and its backends through every later call. After any history a listing that answers is alphabetical, names exactly the keys that can be looked up, and contains every shipped classifier with all its backends. The shipped classifiers are added exactly when each of them either finds its key free or finds it with the same description and preferences and without its backends; otherwise every listing and look-up raises, now and after any further calls. The shipped list is consistent and every preferred backend exists.", "quantifier": "all registries and histories of calls", "why_tests_cant": "a test calls the functions once in one order; the bootstrap is lazy, so the claims concern every order of registrations and look-ups", "anchors": ["src/modssc/supervised/registry.py:register_classifier", "src/modssc/supervised/registry.py:register_backend", "src/modssc/supervised/registry.py:ensure_bootstrap", "src/modssc/supervised/registry.py:list_classifiers", "src/modssc/supervised/registry_data.py"]}
{"id": "C129", "title": "Augmentation registry", "statement": "register_op accepts a class exactly when it declares op_id and modality and no other class holds the id. Once get_op has returned a class for an id it returns that class for ever. After any history the listing is alphabetical and names the catalogue and the registered classes; with a modality, those of that modality or of any. If the user keeps away from the ids of the catalogue, every catalogue id can be obtained after any history, gives the class that declares that id and modality, and the modules that happen to be loaded never show in a listing. The shipped catalogue and modules are consistent.", "quantifier": "all catalogues, modules and histories of registrations, look-ups and listings", "why_tests_cant": "modules are imported lazily and importing one registers its classes, so the outcome depends on the history; a test sees one history", "anchors": ["src/modssc/data_augmentation/registry.py:register_op", "src/modssc/data_augmentation/registry.py:available_ops", "src/modssc/data_augmentation/registry.py:get_op", "src/modssc/utils/imports.py:load_object"]}
{"id": "C130", "title": "Dataset URIs", "statement": "A string is a URI exactly when it can be parsed. The provider is what stands before the first colon and the reference what stands after it, both without the white space around them and not empty. Writing a parsed URI and parsing it again gives the same parts, and two parsed URIs that are written alike are equal.", "quantifier": "all strings", "why_tests_cant": "a test parses a few strings; the round trip is claimed for every string", "anchors": ["src/modssc/data_loader/uri.py:parse_uri", "src/modssc/data_loader/uri.py:is_uri", "src/modssc/data_loader/uri.py:ParsedURI"]}
{"id": "C131", "title": "Random walks of node2vec", "statement": "The neighbours a walk can step to are, in increasing order, exactly the other nodes of the graph joined by an edge (in either direction if undirected). Every node with a neighbour starts num_walks walks and every other node none. A walk follows links, has at most the asked number of nodes, and is shorter only if it ends at a node without neighbours; on an undirected graph it always has the asked length. After a step from prev the next node is drawn with probabilities proportional to 1/p for going back, 1 for a neighbour of prev and 1/q otherwise, and uniformly at the first step or when p = q = 1. The training pairs are the pairs of different positions of a walk at most window apart, each once, so that every pair also occurs swapped; a node without links is in no pair.", "quantifier": "all graphs, walk parameters, windows and generators that meet their contract", "why_tests_cant": "a test draws a few walks with one seed; the claims hold for every graph and every generator", "anchors": ["src/modssc/graph/featurization/node2vec.py:_build_adjacency", "src/modssc/graph/featurization/node2vec.py:_random_walks_node2vec", "src/modssc/graph/featurization/node2vec.py:_walk_pairs"]}
{"id": "C132", "title": "Planetoid training", "statement": "A fit returns exactly when two different nodes are linked, at least one walk of at least two nodes and a window of at least one are asked for, some node is labelled, and the batch size is not zero; otherwise it raises ValueError. For a positive batch size it goes the given number of epochs over all pairs of the walks, each pair once per epoch, in batches of the given size (the last may be shorter); every pair comes with the asked number of negatives, and every batch with different training nodes, as many as fit, and their own labels. The labels of other nodes are never read. A node without links that is not labelled is never a centre, a context or a labelled node. Predictions need a fit and a graph of the same size.", "quantifier": "all graphs, labels, masks, parameters and generators that meet their contract", "why_tests_cant": "a test fits one small graph; which nodes and labels the training touches is claimed for all of them", "anchors": ["src/modssc/transductive/methods/gnn/planetoid.py:PlanetoidMethod.fit", "src/modssc/transductive/methods/gnn/planetoid.py:PlanetoidMethod.predict_proba"]}
{"id": "C133", "title": "The node2vec preprocessing step", "statement": "The edges are read from two rows, or else from two columns, and any other shape is refused. The step returns exactly when all its parameters are in range and two different nodes of the graph are linked; otherwise it raises PreprocessValidationError. It trains the embedding the given number of epochs over all pairs of the walks, in batches, with the asked number of negatives.", "quantifier": "all edge arrays, parameters and generators that meet their contract", "why_tests_cant": "a test runs the step on one edge list; the claim covers every shape and every parameter", "anchors": ["src/modssc/preprocess/steps/graph/node2vec.py:GraphNode2VecStep.transform"]}
{"id": "C134", "title": "Weak and strong views of unlabelled data", "statement": "A benchmark asked for augmented views of at least one unlabelled sample returns exactly when the mode is fixed, one or two strong views are asked for, both plans are valid and can be built, there is a number for every sample, every pipeline call succeeds and the results of one view all have one shape. The weak view then holds in row i the result of the weak pipeline on sample i with its own number and the seed, the strong view the result of the strong pipeline in the same context, and the second strong view the result with seed + 1, each array in one element type: that of its first row when the results of the first sample are all numpy arrays or all tensors, the common type otherwise. A single graph is augmented as a whole in the same way; nothing to augment comes back as it is.", "quantifier": "all samples, plans, pipelines, seeds and sample numbers", "why_tests_cant": "a test augments a few samples with one plan; the pairing of rows, numbers and seeds is claimed for all of them", "anchors": ["bench/orchestrators/augmentation.py:run"]}
{"id": "C135", "title": "Augmentation plans of a benchmark", "statement": "A plan is accepted exactly when it is a mapping with no keys besides steps and modality whose steps are a list of mappings with no keys besides id, op_id and params, each naming an operation by id or, when that is empty, op_id, both agreeing if both are given, and with params a mapping or empty; it gives those steps in that order. Everything else is a ValueError. A list of named steps written as a plan is read back.", "quantifier": "all values", "why_tests_cant": "a test tries a few malformed plans; acceptance is characterised for every value", "anchors": ["bench/orchestrators/augmentation.py:_plan_from_dict", "bench/orchestrators/augmentation.py:_check_unknown_keys"]}
{"id": "C136", "title": "Hop averages of GraphHop", "statement": "Hop h joins a node to exactly the nodes whose shortest path from it has h + 1 edges, each once, and no pair belongs to two hops. What a node receives from a hop is the plain average of the rows of those nodes, zero when there are none; the input of classifier m is the row of the node followed by its averages at the distances 1 to m + 1.", "quantifier": "all graphs, hop limits, nodes and tables", "why_tests_cant": "a test checks the rings of a few small graphs; shortest distances must be right in every graph", "anchors": ["src/modssc/transductive/methods/gnn/graphhop.py:_build_hop_edges", "src/modssc/transductive/methods/gnn/graphhop.py:_row_normalize_weights"]}
{"id": "C137", "title": "Fitting GraphHop", "statement": "A fit returns exactly when there is at least one hop, the temperature is positive, the data set is usable, every class up to the largest label has a labelled node, the labels of the other nodes are not below minus the number of classes and given hop weights are as many as the hops. Then a classifier is trained on the labelled nodes alone with the features and their hop averages, and max_iter rounds follow: per hop a classifier is trained on the averaged predictions against the labels, the pseudo-labels and the entropy of the unlabelled nodes, continuing from the previous round; the new predictions are their weighted sum, and the pseudo-labels that at the temperature with the labelled rows replaced by the labels. With validation nodes a training keeps the weights of the last epoch that was not worse than the epoch before by at least the given margin and stops after patience epochs without one. The result does not depend on the labels outside the training and validation masks, and its rows are distributions when the weights of the hops are.", "quantifier": "all data sets, settings, classifiers, optimizers and seeds", "why_tests_cant": "a test fits one small graph; the claim covers every classifier and every loss history", "anchors": ["src/modssc/transductive/methods/gnn/graphhop.py:GraphHopMethod.fit", "src/modssc/transductive/methods/gnn/graphhop.py:_train_lr", "src/modssc/transductive/methods/gnn/graphhop.py:GraphHopMethod.predict_proba"]}
{"id": "C138", "title": "Class prototypes of DASO", "statement": "Whatever labelled batches a fit sees, the memory of a class holds the last queue_size features of rows with that label, oldest first, and its prototype is their average, zero if there are none. The features come from the network itself, or with use_ema from its exponentially averaged copy provided that the function that gives the features takes a model argument or there is no such function.", "quantifier": "all histories of labelled batches, queue sizes, classes and feature extractors", "why_tests_cant": "a test looks at one or two batches; the memory depends on every batch before", "anchors": ["src/modssc/inductive/methods/daso.py:DASOMethod.fit", "src/modssc/inductive/methods/daso.py:_forward_features", "src/modssc/inductive/methods/daso.py:_call_feature_extractor"]}
{"id": "C139", "title": "The objective of a DASO fit", "statement": "The loss of every step is the labelled cross entropy, plus lambda_u times the average loss of the strong view over the rows whose target reaches p_cutoff, plus after pretraining lambda_align times the average cross entropy between the semantic pseudo-labels of the two views. The target is the class distribution of the weak view during pretraining and then a mixture of it with the semantic pseudo-label; with dist_aware the share of the latter grows with the frequency of the predicted class among the targets of the last complete period of dist_update_period steps, equal frequencies before there is one. Targets are distributions, shares lie in [0, 1] and the most frequent class has share 1 unless the power of its frequency is below 1e-12. A fit that fails says InductiveValidationError, for sizes, numbers out of range or an unsuitable ema_model.", "quantifier": "all data sizes, networks, generators and settings", "why_tests_cant": "the frequencies and prototypes of a step depend on all steps before it; a test runs a few steps", "anchors": ["src/modssc/inductive/methods/daso.py:DASOMethod.fit", "src/modssc/inductive/methods/daso.py:_update_ema", "src/modssc/inductive/methods/daso.py:_check_ema"]}
{"id": "C140", "title": "The stages of a SimCLRv2 fit", "statement": "A fit that returns has pretrained on the unlabelled rows, transferred the weights, fine-tuned on the labelled rows and distilled, in this order, each stage with the epochs asked for and each epoch using its rows evenly, and each stage changes the weights of its own model only; a teacher with its own student bundle keeps its weights. Fit fails only for settings, data or bundles that are not in order (then nothing was trained), weights that cannot be transferred, a student that shares parameters with its teacher, or a frozen model. The model that predicts is the one that was trained last, provided there was fine-tuning, or no distillation, or a student bundle, or a single bundle. A later fit with the same bundles cannot succeed after one with fine-tuning and a student bundle.", "quantifier": "all networks, optimizers, generators, settings, bundles, data sizes and initial weights", "why_tests_cant": "the stages share mutable models; tests run one combination of bundles and epochs", "anchors": ["src/modssc/inductive/methods/simclr_v2.py: SimCLRv2Method.fit", "src/modssc/inductive/methods/simclr_v2.py: _check_distill_models", "src/modssc/inductive/methods/simclr_v2.py: _rebind_meta"]}
{"id": "C141", "title": "The losses and predictions of SimCLRv2", "statement": "The contrastive loss of two views is the average over all rows of minus the log share of the other view of the same row, and depends neither on the order of the views nor on the order of the rows. Fine-tuning minimises the average cross entropy of the labels, distillation (1 - alpha) times that plus alpha times the average cross entropy between the softened teacher and student predictions, or the latter alone. Predictions treat every row on its own whatever the batch size, an input without rows included, and leave the model in its mode.", "quantifier": "all batches, temperatures, alphas, networks and batch sizes", "why_tests_cant": "the index arithmetic of positives and the independence of orders range over all batch sizes and permutations", "anchors": ["src/modssc/inductive/methods/simclr_v2.py: _nt_xent_loss", "src/modssc/inductive/methods/simclr_v2.py: _distill_loss", "src/modssc/inductive/methods/simclr_v2.py: SimCLRv2Method.predict_proba"]}
{"id": "C142", "title": "Walk matrices, reach and predictions of N-GCN", "statement": "Fitting N-GCN keeps K matrices; entry (i, j) of the k-th adds up the weights of all walks of k steps from i to j, where a step weighs the tie of its ends (the sum of the mentions of the link, the stronger direction when symmetrized, 1 for a loop) divided by the square roots of the totals of both ends. The order of the edges, loops among them and, when symmetrized, turning all edges round do not change the fit. The scores of a node are the softmax of the joined or averaged outputs of K times r networks over these matrices, and depend only on the features of nodes within layers times (K - 1) links in the fitted graph. Without symmetrization a node reads the nodes it points to, mentions of a link add up within one direction only, K = 1 ignores the graph, and so does predict_proba for the graph it is given. Settings below 1 and unknown classifiers are refused.", "quantifier": "all graphs, weights, features, labels, masks, settings, layers, gradient steps and data sets given to predict_proba", "why_tests_cant": "walk sums and dependence on far nodes range over all graphs, depths and layers", "anchors": ["src/modssc/transductive/methods/gnn/n_gcn.py:_build_dense_adjacency", "src/modssc/transductive/methods/gnn/n_gcn.py:_normalize_adjacency", "src/modssc/transductive/methods/gnn/n_gcn.py:_NGCNNet", "src/modssc/transductive/methods/gnn/n_gcn.py:NGCNMethod.fit", "src/modssc/transductive/methods/gnn/n_gcn.py:NGCNMethod.predict_proba"]}
{"id": "C143", "title": "What GraFN trains on: support, views, assignments and loss", "statement": "In every epoch GraFN draws, without repetition, as many training nodes of each class as the rarest class has, and two views that hide the same columns for every node and keep some of the edges (at least one if there are any) before loops and symmetric weights. The assignment of a node is, per class, the softmax weight of the supports of that class, and is a distribution. The loss adds half the mean cross entropies of both views over the training nodes, the assignments of the strong view against those of the weak view over exactly the training nodes and the nodes with a share above the threshold, and the distance of the representations. A class without training nodes is refused. Shares below 1/10000 are removed from a target without scaling it up, so that it sums to at least 1 - classes/10000; an edge rate of 1 or more keeps every edge, while a feature rate of 1 hides every column.", "quantifier": "all graphs, features, labels, masks, rates, thresholds, generators, representations and class counts", "why_tests_cant": "sampling and the choice of the confident nodes range over all draws and all representations", "anchors": ["src/modssc/transductive/methods/gnn/grafn.py:_sample_support", "src/modssc/transductive/methods/gnn/grafn.py:_drop_edges", "src/modssc/transductive/methods/gnn/grafn.py:_drop_features", "src/modssc/transductive/methods/gnn/grafn.py:_build_augmented_view", "src/modssc/transductive/methods/gnn/grafn.py:_snn", "src/modssc/transductive/methods/gnn/grafn.py:GraFNMethod.fit"]}
{"id": "C144", "title": "Training, stopping and predictions of GraFN", "statement": "GraFN.fit returns exactly for usable data with a training node, a positive temperature, a threshold in [0, 1], at least one layer and, when epochs are asked for, a training node of every class and no unlabelled training node. It takes one step per epoch from the initial weights on the loss of the draws of that epoch. Without validation nodes the last weights are kept; with them training stops at the first epoch that is patience epochs (at least one) past the best one and keeps the weights of the first epoch with the highest validation accuracy. Labels other than those of training and validation nodes matter only through the number of classes. predict_proba is the softmax of the logits of the new features on the graph of the fit, whatever graph comes with them. A fit that raises while training leaves the untrained network in the object, so that predict_proba then answers.", "quantifier": "all settings, data sets, seeds, networks, optimizers and histories of validation accuracies", "why_tests_cant": "early stopping depends on the whole history of accuracies, and the fate of a failed fit on where it fails", "anchors": ["src/modssc/transductive/methods/gnn/grafn.py:GraFNMethod.fit", "src/modssc/transductive/methods/gnn/grafn.py:GraFNMethod.predict_proba"]}
{"id": "C145", "title": "Fits and predictions of the torch logistic regression and MLP", "statement": "fit returns exactly for tensors with matching, non-empty data on one device and settings in range, and then has trained a network with one output per distinct label through max_epochs passes; each pass visits every row once, in a random order, in batches of batch_size (only the last one smaller), every row with the position of its own label among the sorted distinct labels. Renaming the labels in increasing order renames the classes and changes no score. The scores of a row depend on that row alone and form a distribution over the training labels; predict answers a training label with the largest score. Inputs of another width or device are refused. The result of an MLP fit depends on the seed (0 when none is given) and not on the state of the global generator; the logistic regression draws its initial weights before it sets the seed, so its result depends on that state. A fit that raises keeps the old network; one that raises for a negative rate or an unknown activation has already replaced the class labels, so the old network then answers with labels it was not trained on.", "quantifier": "all tensors, labels, settings, networks, optimizers, generators and objects with any history", "why_tests_cant": "the order of batches, the renaming of labels and the state of the global generator range over infinitely many cases", "anchors": ["src/modssc/supervised/backends/torch/logreg.py:TorchLogRegClassifier", "src/modssc/supervised/backends/torch/mlp.py:TorchMLPClassifier", "src/modssc/supervised/backends/torch/common.py:predict_from_scores"]}
{"id": "C146", "title": "Inputs, fits and predictions of the torch text and image networks", "statement": "The text network reads [n, length, channels] (or [n, channels, length], as configured) or flat rows as one channel, uses exactly the configured kernels no longer than the training sequences, and refuses training data shorter than all of them; a fitted network takes sequences with the same number of channels that are at least as long as every kernel in use. The image network reads [n, c, h, w], [n, h, w] as one channel, or flat rows through the known shape or the configured input_shape (with the same values in the same order), and a fitted one takes only images of the fitted shape on the device of the training labels. fit returns exactly for such data and settings in range; training and answers are as for the MLP. The image shape is remembered before the other checks, so a refit that raises can make the old network refuse the data it was trained on; and flat rows given to a refit are read with the shape of the earlier fit and not with the configured one.", "quantifier": "all tensors, layouts, kernels, shapes, labels, settings and objects with any history", "why_tests_cant": "shapes and histories of refits range over infinitely many cases", "anchors": ["src/modssc/supervised/backends/torch/text_cnn.py:TorchTextCNNClassifier", "src/modssc/supervised/backends/torch/image_cnn.py:TorchImageCNNClassifier", "src/modssc/supervised/backends/torch/common.py:make_softmax_scores_method"]}
{"id": "C147", "title": "Waveforms become rows of one length, each from its own item", "statement": "audio.load_waveform gives one row per item, in order, and the row of an item depends on that item alone: the average of its channels sample by sample, brought to target_sample_rate when the file has another rate, then cut to max_length at the start, the middle or the end when it is longer and followed by pad_value when it is shorter. With max_length all rows have that length and a batch is the batches of its parts put together; without it the step refuses waves of different lengths. The step returns exactly when every item can be read and, unless there are no items, trim is known, max_length is positive, and with a target rate every item is a file. The scipy fallback is used only after a codec error and when allowed, and integer samples then lie in [-1, 1]. The setting mono changes nothing, since channels are averaged in both cases; a path given as bytes is opened under the name of its Python literal; and a single waveform given as a one-dimensional array is refused.", "quantifier": "all items, files, rates, lengths, trims and settings", "why_tests_cant": "windows of waves of every length, and what every loader may return", "anchors": ["src/modssc/preprocess/steps/audio/load_waveform.py:LoadWaveformStep.transform", "src/modssc/preprocess/steps/audio/load_waveform.py:LoadWaveformStep._load_path", "src/modssc/preprocess/steps/audio/load_waveform.py:_trim_waveform", "src/modssc/preprocess/steps/audio/load_waveform.py:_pad_waveform", "src/modssc/preprocess/steps/audio/load_waveform.py:_as_numpy_waveform"]}
{"id": "C148", "title": "The data adapters take exactly the datasets in order and change nothing in them", "statement": "to_numpy_dataset returns exactly when X_l is an array of at least two dimensions, y_l is an array of one or two dimensions with as many rows, every unlabeled array given has at least two dimensions and the second size of X_l, X_u_w and X_u_s have as many rows, views are a mapping from strings to arrays and meta is a mapping; it then hands the dataset over unchanged, and otherwise raises a validation error unless numpy cannot make an array of a field. to_torch_dataset asks the same of tensors, or of what dicts hold under x, and also that all tensors lie on one device and, when a device is named, on that device; it returns the same fields, with the index entries of meta as int64 tensors on the device of the unlabeled data and every other entry of meta as it was. Sizes beyond the second are never compared; with device cuda or mps no dataset is taken at all, since a tensor lies on cuda:0 and the adapter compares with cuda; a dict without x is an attribute error as labelled data and is taken unchecked as unlabeled data; a dict with a value that is not a tensor is taken with device auto and fails with device cpu; a meta that is not a mapping is taken by the torch adapter only.", "quantifier": "all datasets, shapes, dicts, devices and meta entries", "why_tests_cant": "arbitrary nested dicts, shapes of every rank and every placement of tensors", "anchors": ["src/modssc/inductive/validation.py:validate_inductive_dataset", "src/modssc/inductive/adapters/numpy.py:to_numpy_dataset", "src/modssc/inductive/adapters/torch.py:to_torch_dataset", "src/modssc/backends/torch_common.py:make_resolve_device"]}
{"id": "C149", "title": "Cached graph views are the views a call without a cache would compute", "statement": "For calls of graph_to_views that share a cache directory, some of them killed at any step of the save, every completed call answers as it would without a cache, as long as calls whose graphs have one fingerprint are about one graph and one X. The key is made of the fingerprint in the meta of the graph, or else of the number of nodes and the first thousand edges, with the spec and the seed; labels and masks always come from the dataset of the call. An overwriting save that is killed leaves an entry that loads to the old views, the new ones or not at all. X is not in the key, so another X on the same graph gets the views of the first one; without a fingerprint in meta the weights and later edges are not in the key either; a fingerprint that is None is the text None for all graphs; an overwriting save killed between its removals can leave a manifest without views, after which every cached call fails; a save that does not overwrite can pair an old manifest with new views.", "quantifier": "all graphs, datasets, specs, seeds, histories of calls and crash points", "why_tests_cant": "needs every history of calls, every crash point and every pair of inputs sharing a key", "anchors": ["src/modssc/graph/featurization/api.py:graph_to_views", "src/modssc/graph/cache.py:ViewsCache", "src/modssc/graph/artifacts.py:GraphArtifact"]}
{"id": "C150", "title": "The fingerprint of a matrix tells it apart up to its middle rows, and keys cached graphs", "statement": "Two matrices have one fingerprint exactly when they have the same shape, type and first and last max_bytes rows (all of them when they have at most max_bytes bytes), unless the hash collides; so every matrix of at most 2 * max_bytes rows is identified. Cached builds of a graph answer as uncached ones when equal fingerprints mean equal matrices. The ends are rows and not bytes, since the byte view of a matrix is a matrix; longer matrices that differ only in a middle row get one fingerprint, and a dataset fingerprint that is given is believed, so the graph of another X comes back; the benchmark gives one, and so an experiment whose graph includes the test rows gets the cached graph of one without them.", "quantifier": "all matrices, limits, hashes and sequences of requests", "why_tests_cant": "the claim compares every pair of matrices and every history of requests", "anchors": ["src/modssc/graph/fingerprint.py:fingerprint_array", "src/modssc/graph/construction/services/service.py:build_graph"]}
{"id": "C151", "title": "An experiment configuration is accepted exactly when it is well-formed, and says what was written", "statement": "Reading a configuration returns a value exactly when every section has only known keys with values of the right kind (texts that are not blank, whole numbers, lists of distinct seeds, flags, mappings, positive limits, a search with a valid space), and every field of the value is the one written or its documented default. A model given by a factory is accepted only where run.allow_custom_factories is true; every parameter of a search lies under method.params; benchmark mode implies fail_fast. Errors are configuration errors, but for those of int(run.seed) and of numbers in a search space. Each run of a seed sweep over an accepted configuration gets an accepted configuration that differs only in name, output directory and seeds. run.seed is less checked than the other seeds (1.5 is 1, null is a TypeError), true and false are the seeds 1 and 0, and a null output directory is the directory named by the text of null.", "quantifier": "all nested configurations with unique keys, all seeds and directories of a sweep", "why_tests_cant": "needs every configuration, including every wrong key and kind of value at every place", "anchors": ["bench/schema.py:ExperimentConfig.from_dict", "bench/schema.py:_validate_search_space", "bench/utils/seed_sweep.py:apply_global_seed", "bench/main.py:run_experiment"]}
{"id": "C152", "title": "A run starts exactly when its preflight conditions hold, and benchmark mode is checked before the dataset is touched", "statement": "For an accepted configuration the run gets past its checks exactly when every preprocess step of the plan and of the views is named, the dataset loads, the optional dependencies are there, fittable steps have a fit_on, co_training has views, a transductive method has a graph, an enabled augmentation is fixed with both pipelines, and the metrics and splits exist; in benchmark mode, also no download, a cache directory, no setting written as auto anywhere, a model-selection split that is reported and used by the search, and a backend where the method has one. In benchmark mode a broken contract stops the run before the dataset is asked for. A graph whose spec names no backend passes although it is then built with the automatic one, and outside benchmark mode an unknown metric is found only once the dataset has been loaded.", "quantifier": "all configurations, registries, optional dependencies and datasets", "why_tests_cant": "needs every configuration and every environment", "anchors": ["bench/main.py:_benchmark_contract_preflight", "bench/main.py:_preflight", "bench/main.py:_preprocess_step_ids", "bench/main.py:_run_experiment_single"]}
{"id": "C153", "title": "The supervised baseline is trained on the labelled data alone and serves the last successful fit", "statement": "Fit of the supervised baseline returns exactly when the dataset is in order for its backend (arrays or tensors as in the data adapters, whole-number labels of rank 1, at least one labelled example, a classifier backend that matches, a CPU device for arrays) and the classifier can be made and trained; the object then holds a fresh classifier of the given seed trained once on the labelled data, whatever the unlabeled data, views and metadata are. A fit that raises leaves the object as it was, so after any history predictions come from the last fit that succeeded, and are runtime errors before it; arguments of the other backend are refused. predict_proba returns the scores of the classifier, each row divided by its sum unless that is zero, and one-hot rows for a classifier that only predicts. Any classifier backend name but torch is let through for arrays, and unlabeled tensors in a dict without x make fit fail with an AttributeError although they are not used.", "quantifier": "all datasets, devices, seeds, classifiers, arguments and histories of calls", "why_tests_cant": "needs every history of calls and every dataset", "anchors": ["src/modssc/inductive/methods/supervised.py:SupervisedMethod", "src/modssc/inductive/methods/helpers/classifier_bridge.py:detect_backend", "src/modssc/inductive/methods/helpers/classifier_bridge.py:predict_scores"]}
{"id": "C154", "title": "The networks of deep model bundles fit the data they are built from", "statement": "A torch bundle for a known classifier, a positive number of classes and a tensor or graph sample is built exactly when the parameters the network uses are in order (positive sizes, a known activation, a dropout that is a probability, non-negative rates); its weights depend on the request and the seed alone, and the moving average starts as their copy. The network then takes batches of any size shaped like the sample and returns one row of logits per example, as wide as the number of classes, with features of the width before the last layer where they are asked for: rows of d values through the hidden sizes for mlp and logreg, images and waveforms with channels of any size for the convolutional networks, sequences with channels first at least as long as the sample for text_cnn, words of the vocabulary or embedded sequences for lstm_scratch, graphs for graphsage_inductive. It is false of inputs the factory accepts and the network refuses: rows of several dimensions for mlp, images and waveforms without channels, the default layout and flat features for text_cnn, integer data with a word above those of the first row for a guessed vocabulary, feature tensors for graphsage_inductive.", "quantifier": "all classifier identifiers, backends, parameters, sample shapes, numbers of classes, seeds, generator states and batch shapes", "why_tests_cant": "needs every combination of parameters and shapes", "anchors": ["src/modssc/inductive/deep/bundle_factories/factory.py:build_torch_bundle_from_classifier", "src/modssc/supervised/backends/torch/image_cnn.py:_ImageCNN", "src/modssc/supervised/backends/torch/text_cnn.py:_TextCNN"]}
{"id": "C155", "title": "The benchmark hands inductive methods consistent inputs and reproducible model bundles", "statement": "Before an inductive method runs, its inputs count as torch-backed exactly when they are a tensor or a dict with a tensor and no array in it. Conversion puts tensors on the device in place of every array, keeps absent values and the keys of dicts, divides uint8 arrays by 255, and changes nothing when repeated. Benchmark mode accepts exactly torch-backed inputs (where torch is required) of rank at least two and floating type with as many labels as rows. Views are cut at the same rows as the data. Model bundles go to one field, to a pair or to the four bundles of TriNet; each has weights drawn from the seed plus its own offset, whatever the state of the generator, and a moving average as configured; their outputs are the distinct labels of the labelled rows, which fit exactly when the labels are 0 to k-1; the heads of TriNet take what the shared network gives them. It is false for: uint8 tensors, which are not scaled; bundles of a configured factory, which never see the seed; labelled rows that miss a class; TriNet with image_cnn or lstm_scratch, whose shared network and heads do not fit.", "quantifier": "all nested inputs, devices, indices, views, labels, fields of specifications, model configurations, seeds, generator states and batches", "why_tests_cant": "needs every nesting of inputs, every label set and every state of the global generator", "anchors": ["bench/orchestrators/method_inductive.py:_smart_to_torch", "bench/orchestrators/method_inductive.py:_validate_strict_inputs", "bench/orchestrators/method_inductive.py:_inject_model_bundle", "src/modssc/inductive/methods/trinet.py:_forward_shared"]}
{"id": "C156", "title": "Class filters and sample limits keep whole labelled rows", "statement": "Loading a data set with a class filter and a limit returns rows whose label passes the filter, each at most once, with the label it had; their number is the limit or the number of passing rows, whichever is smaller, and a limit of zero or less gives none. Without a seed, or without a limit, they are the first passing rows in order. The test split is limited on its own, with the next seed, and never changes the training rows. Data and labels of different lengths are refused only when there is a filter; otherwise extra rows go unnoticed.", "quantifier": "all data, labels, filters, limits, seeds and shuffles", "why_tests_cant": "needs every alignment of data with labels and every outcome of the shuffle", "anchors": ["src/modssc/data_loader/providers/common.py:apply_limits", "src/modssc/data_loader/providers/torchvision.py", "src/modssc/data_loader/providers/hf.py"]}
{"id": "C157", "title": "A graph cut down to some nodes is the induced subgraph", "statement": "Loading a graph with features, with labels and masks of one dimension and edges in two rows keeps some nodes in their order: those whose label passes the filter (a missing label counts as -1), as many as a non-negative limit allows, the first ones without a seed. Features, labels and masks of the result are those of the kept nodes, and its edges are exactly the edges between kept nodes, in order, renumbered by the places of their ends. Edges as rows of pairs are read the same way unless there are exactly two. It is false for: no node kept, or a graph without features and labels, where edges and masks are lost; masks with several columns, which are flattened so that a node gets the entry of another; several labels per node, where a node is kept repeatedly; a negative limit, which drops nodes from the end; an empty edge list, which becomes none; negative node numbers in edges, which count from the last node.", "quantifier": "all graphs, filters, limits, seeds and shuffles", "why_tests_cant": "needs every graph, every selection of nodes and every shape of masks and labels", "anchors": ["src/modssc/data_loader/providers/pyg.py:_subset_graph", "src/modssc/data_loader/providers/pyg.py:_pad_labels", "src/modssc/data_loader/providers/pyg.py:_as_edge_index"]}
{"id": "C158", "title": "The supervised GraphSAGE classifier is local, reproducible and labels every node", "statement": "The hidden layers are the positive sizes listed (one fewer than the number of layers, if that is given) or equal layers by number. A fit succeeds exactly for a graph with features in two dimensions, edges in two rows and one label per node, with a known activation; when there is training, edges must be between nodes and labels not negative (or -100). With a seed it leaves the same classifier whatever happened before. Afterwards every graph with as many features gets one label per node, from 0 to the largest label seen, and the label of a node depends only on nodes with a walk to it no longer than the number of layers; an array of features is a graph without edges. Fits refused for their input leave predictions as they were. It is false for: edge weights, batch_size and num_neighbors, which change nothing; fits that fail on a negative label or a bad edge, after which untrained weights answer; labels that no node had, which can be predicted.", "quantifier": "all graphs, labels, configurations, earlier histories, weights, training steps and generator states", "why_tests_cant": "needs every graph and every history of fits, failures and draws of the global generator", "anchors": ["src/modssc/supervised/backends/torch/graphsage_inductive.py:TorchGraphSAGEClassifier", "src/modssc/supervised/backends/torch/graphsage_inductive.py:_coerce_graph_input"]}
{"id": "C159", "title": "OpenML references are read as written and ask for the data set they name", "statement": "A reference of digits is the number of a data set; a reference of pairs key=value separated by commas, with white space anywhere around keys and values, is read as those pairs, the last value of a key counting, data_id having to be a number and a version of digits being one. Options win over the reference. A data_id is what is asked of OpenML; without one the first of name, dataset and data_name that says something, else the reference itself; the version goes along when there is one. It is false for: target_column, which makes another data set of it in the cache but is never asked for; a name followed by pairs, which is looked up whole; as_frame=False in a reference, which means true.", "quantifier": "all references, white space, options and conversions of texts to numbers", "why_tests_cant": "needs every way of writing a reference and every combination with options", "anchors": ["src/modssc/data_loader/providers/openml.py:_parse_openml_ref", "src/modssc/data_loader/providers/openml.py:OpenMLProvider.resolve", "src/modssc/data_loader/providers/openml.py:OpenMLProvider.load_canonical"]}
{"id": "C160", "title": "Torchaudio data sets become aligned paths and labels, or waveforms, one sample each", "statement": "With a list of entries every entry is one sample, in their order: the path of the file it stands for (itself, else with .wav, else with .flac, under the data directory when relative) with the label its directory or, for YESNO, its first character says. Without entries every item is one sample with its waveform and third element; items shorter than three are refused. The official subsets are used when both can be built; a TypeError of either means the whole data set without a test split; other failures are passed on. It is false for: names with a dot, whose part after the dot is replaced, so that several entries share one file and the right one is not found; bare names outside YESNO, which all get the same label; relative data directories that the entries begin with, which come twice in the path.", "quantifier": "all data sets, directories, entries, files present, spellings of the class and failures", "why_tests_cant": "needs every set of entries and files on disk", "anchors": ["src/modssc/data_loader/providers/torchaudio.py:_paths_from_walker", "src/modssc/data_loader/providers/torchaudio.py:_labels_from_paths", "src/modssc/data_loader/providers/torchaudio.py:_extract_xy", "src/modssc/data_loader/providers/torchaudio.py:_official_or_single"]}
{"id": "C161", "title": "The graph.dgi step: what it accepts, what it computes, and what its seed governs", "statement": "The step works exactly on stores with a numeric feature table (features.X, else raw.X; one dimension is one column), an edge array in either layout whose nodes are inside the table, one weight per edge or none, and a configuration with positive sizes, epochs and rate and a dropout in [0, 1); otherwise it raises PreprocessValidationError and no generator has been touched. The result has one row per node and embedding_dim columns: a two-layer graph convolution over the symmetrically normalised links, with weights updated once per epoch by choices drawn from the generator the step seeds. Without added loops a node without incoming edges gets the zero row. It is false that the seed of the step fixes the result (the weights are drawn before seeding, so they depend on earlier use of the global torch generator), and that the step leaves that generator alone: it is reseeded.", "quantifier": "all stores, configurations, generators, weights, updates and random choices", "why_tests_cant": "needs every graph and every earlier state of the global generator", "anchors": ["src/modssc/preprocess/steps/graph/dgi.py:GraphDGIStep.transform", "src/modssc/preprocess/steps/graph/dgi.py:_train_dgi", "src/modssc/preprocess/steps/graph/dgi.py:_as_edge_index"]}
{"id": "C162", "title": "Stub embeddings: one row per sample, fixed by what the encoder sees of it and its position", "statement": "The offline stub encoder returns one row of dim numbers per sample, in order, and never draws from the generator it is given or looks at the batch size; a row depends only on its sample and its position. If the seeded generator tells all seeds apart, two rows are equal exactly when the position is the same and the encoder sees the same: the text, or shape, type and first 1024 bytes of an array. Hence it is false that equal samples get equal embeddings (the position is hashed too) and that different arrays get different ones (bytes after the first 1024 are ignored).", "quantifier": "all samples, data sets, positions, dimensions and seeded generators", "why_tests_cant": "needs every pair of samples and positions", "anchors": ["src/modssc/preprocess/models_backends/stub.py:StubEncoder.encode", "src/modssc/preprocess/models_backends/stub.py:_sample_bytes"]}
{"id": "C163", "title": "The embeddings.auto step: which encoder a data set goes to, what it returns, and when encoders are loaded", "statement": "Every data set goes exactly one way: to the text encoder when its first element is a string without the ending of an audio file (or it is an array of bytes), else to the vision encoder when it is an array of three or four dimensions, else to the audio encoder when its first element is a string or path with the ending of an audio file (in any case, a trailing slash allowed) or a sequence of one or two dimensions, else it becomes a table of numbers with one row per element of the first dimension, without any encoder or draw. Over any history an encoder is loaded only when some data set goes to it, loaded again only after a failed load, and kept from then on. It is false that the choice depends on the data as a whole (the first element decides), that rows of numbers as lists are numbers (they go to the audio encoder), that tensors of pictures go to the vision encoder, and that no samples give a table of the width of the embeddings.", "quantifier": "all data sets, paths, histories of uses, loads that fail or succeed, and encoders", "why_tests_cant": "needs every first element, path spelling and history of loads", "anchors": ["src/modssc/preprocess/steps/embeddings/auto.py:AutoEmbeddingStep.transform", "src/modssc/preprocess/steps/embeddings/auto.py:_looks_like_text", "src/modssc/preprocess/steps/embeddings/auto.py:_looks_like_audio", "src/modssc/preprocess/steps/embeddings/auto.py:_is_audio_path"]}
{"id": "C164", "title": "Hugging Face references name the data set and configuration requested, and the splits come from the named columns", "statement": "A reference name or name/config, with white space anywhere around the two, requests that name with that configuration, else with the one of the options, else without; the canonical URI names the same data set and configuration again. The training data are the two columns of the split train (or of a data set without splits), the test data those of the preferred one of test and validation, else of the other, else none; a missing training split or column is a KeyError. It is false for data sets of an owner: owner/name is always read as data set owner with configuration name; and for an empty configuration, which is passed on but not shown in the URI.", "quantifier": "all references, options, data sets, splits and columns", "why_tests_cant": "needs every spelling of a reference and every set of splits and columns", "anchors": ["src/modssc/data_loader/providers/hf.py:HuggingFaceDatasetsProvider.resolve", "src/modssc/data_loader/providers/hf.py:_split_ref", "src/modssc/data_loader/providers/hf.py:_extract_official_test", "src/modssc/data_loader/providers/hf.py:_extract_split"]}
{"id": "C165", "title": "The torchvision image encoder gives one row per image, in order, whatever the batch size", "statement": "For a list of images of one size row i holds the features of image i for every batch size above zero; whenever encoding succeeds there is one row per image, of the picture the array stands for (two dimensions: one channel; three: the last dimension is the channels if it is 1, 3 or 4, else the first), a single channel being shown three times to models that want three. An image that stands for no picture or has the wrong channels makes the call fail. Arrays of four dimensions are stacks of images, and so are those of three dimensions of which neither the first nor the last can be channels. It is false for stacks of 1, 3 or 4 gray images and of gray images of width 1, 3 or 4: one row at most; and narrow images with the channels first are read with rows as channels.", "quantifier": "all arrays, lists of images, sizes, batch sizes and networks", "why_tests_cant": "needs every shape and number of images", "anchors": ["src/modssc/preprocess/models_backends/torchvision_image.py:TorchvisionImageEncoder.encode", "src/modssc/preprocess/models_backends/torchvision_image.py:_to_nchw", "src/modssc/preprocess/models_backends/torchvision_image.py:_is_single_image_3d"]}
{"id": "C166", "title": "The statistics of a sample describe that sample", "statement": "For every plan and seed the statistics of an inductive sample give, of its train, validation and labelled index sets, the size and the number of samples of each class that occurs, in ascending order, and of the test set the same from the labels of the data its indices refer to; the labelled and unlabelled sizes add up to the train size. For graphs the counts are the numbers of nodes of the masks and the classes those of the labelled nodes. Computing them never makes sampling fail. The recorded policy names the data the test indices refer to, and an official test set said to be ignored is; but one that the plan does not respect is replaced without being recorded as ignored.", "quantifier": "all labels, plans, generators, masks and test sets", "why_tests_cant": "needs every sample that sampling can return", "anchors": ["src/modssc/sampling/stats.py:class_distribution", "src/modssc/sampling/stats.py:build_inductive_stats", "src/modssc/sampling/stats.py:build_graph_stats", "src/modssc/sampling/services/service.py:_sample_inductive", "src/modssc/sampling/services/service.py:_sample_graph"]}
{"id": "C167", "title": "Preprocessing plans are read as they are written", "statement": "A plan whose steps name themselves by a non-empty text under id or step_id, with a mapping of parameters, lists of texts and a boolean switch, is read by the library and by the benchmark as exactly those steps, in order; a dumped plan is read back; what the benchmark accepts the library reads alike; and the benchmark refuses unknown keys, steps without a name or with two, and other parameters than a mapping. Values of other kinds are not refused: a modality given as a text is taken for its letters and the step silently skipped, a switch given as a text is on, and the library reads a step without a name as the step None and passes over unknown keys.", "quantifier": "all plans and values", "why_tests_cant": "needs every nested dictionary", "anchors": ["src/modssc/preprocess/plan.py:load_plan", "src/modssc/preprocess/plan.py:PreprocessPlan.to_dict", "bench/orchestrators/preprocess.py:_plan_from_dict"]}
{"id": "C168", "title": "Plans of views are read as they are written", "statement": "A plan of views that is written with values of the right kinds is read as exactly those views, in order, when it is well formed (two views or more, different names, complements of earlier views only, proper selections), and refused otherwise; whatever is accepted is well formed and keeps the written names; unknown keys at any level, missing names and bad preprocessing plans are refused. A null name is read as the name None and fractional columns are cut off.", "quantifier": "all plans and values", "why_tests_cant": "needs every nested dictionary", "anchors": ["bench/orchestrators/views.py:_plan_from_dict", "bench/orchestrators/views.py:_view_spec_from_dict", "bench/orchestrators/views.py:_column_spec_from_dict", "src/modssc/views/plan.py:ViewsPlan.validate"]}
{"id": "C169", "title": "The numpy and torch operators of a graph compute the same", "statement": "For edges between the n nodes, one weight per edge (or none, meaning all ones) and features of n rows, the numpy and the torch product both give every node the weighted sum of the rows of its sources, repeated edges and loops included; both normalisations give the same weights, divided by the clamped totals of the destination (random walk) or by the root of the product of both ends (symmetric); random-walk weights arriving at a node add up to 1 when their total reaches eps, so that the random-walk Laplacian of a constant vanishes there; both Laplacians agree; and whenever the torch operators answer the numpy ones answer alike. The converse fails: the numpy product reads node -1 as the last node where torch fails, and for integer features it cuts the weights down to integers, so that weights below 1 count nothing. An unknown normalisation is refused only when the graph has an edge.", "quantifier": "all graphs, weights, features and normalisations", "why_tests_cant": "needs every graph", "anchors": ["src/modssc/transductive/backends/numpy_backend.py:spmm", "src/modssc/transductive/backends/torch_backend.py:spmm", "src/modssc/transductive/backends/numpy_backend.py:normalize_edges", "src/modssc/transductive/backends/torch_backend.py:normalize_edges", "src/modssc/transductive/operators/spmm.py:spmm_numpy", "src/modssc/transductive/operators/laplacian.py:laplacian_matvec_numpy"]}
{"id": "C170", "title": "A fine-tuned image classifier replaces one head, trains on every row and keeps a frozen backbone", "statement": "Fitting the torchvision classifier replaces exactly one layer of the loaded network, a linear one, by one with the same inputs and one output per class: fc if it is linear, else the last linear layer of the classifier, else the head; a network without such a layer is refused. Images are read as layout, rank and shape say (channels first or last, gray images, flat rows), a single channel is shown three times when the network wants three and this was asked for, and other numbers of channels are refused. Every epoch goes through every row once, in batches of the asked size, each with the position of its label among the classes; with a frozen backbone only the head is optimized and the backbone comes out as it was loaded; otherwise the network is in training mode except for batches of one row. The result does not depend on the random state before the fit. A fitted classifier accepts exactly the images of the fitted shape, predicts the class with the highest score and is not changed by predicting. Two corners fail: a second fit on flat rows reads them in the shape left by the first fit instead of the input_shape given, and a fit refused after the network is loaded (for example for its number of labels) leaves a classifier that answers with an untrained network and the labels of the refused fit.", "quantifier": "all networks, images, labels, settings, seeds and earlier states of the classifier", "why_tests_cant": "needs every network, image layout and sequence of fits", "anchors": ["src/modssc/supervised/backends/torch/image_pretrained.py:_replace_classifier", "src/modssc/supervised/backends/torch/image_pretrained.py:TorchImagePretrainedClassifier._prepare_X", "src/modssc/supervised/backends/torch/image_pretrained.py:TorchImagePretrainedClassifier.fit", "src/modssc/supervised/backends/torch/common.py:make_softmax_scores_method", "src/modssc/supervised/backends/torch/common.py:predict_from_scores"]}
{"id": "C171", "title": "The LSTM and audio networks built inside fit train on every row once per epoch and answer only what they can score", "statement": "The LSTM and the audio classifier read exactly two dimensions of token ids, cut towards zero, and images of waveforms with or without a dimension of channels; nothing with no rows. A fit succeeds exactly when the input is readable, there is one label per row, tensors are on one device, dropout is between 0 and 1, rate and decay are not negative, batches are positive and, if there is at least one epoch, every row can be scored: ids inside the vocabulary and at least one, or one channel and an image that survives the halvings of the blocks. It then builds a network for the classes (for audio one channel, then as many convolutions as blocks with doubling outputs) and goes through every row once in every epoch, in batches of the asked size, each with the position of its label; with a seed the random state before the fit does not matter. What is refused before a network is built leaves the classifier as it was. A fitted classifier answers exactly for readable input on its device with rows it can score, and predicts a class with the highest score; one never fitted does not answer. Four corners fail: a fit that fails in training (a token outside the vocabulary) leaves an untrained or partly trained network that answers with the labels of the failed fit; no or a negative number of epochs counts as fitted; labels that are not integers are cut, so 0.25 and 0.75 become one class; kernel_size is accepted and ignored, every kernel is 3.", "quantifier": "all inputs, labels, devices, settings, seeds, orders of the rows and earlier states of the classifier", "why_tests_cant": "needs every input shape, setting and sequence of fits", "anchors": ["src/modssc/supervised/backends/torch/lstm_scratch.py:TorchLSTMClassifier", "src/modssc/supervised/backends/torch/audio_cnn_scratch.py:TorchAudioCNNClassifier", "src/modssc/supervised/backends/torch/common.py:predict_from_scores"]}
{"id": "C172", "title": "A torchvision data set is loaded from both of its parts, in full, under the name the reference gives", "statement": "A torchvision reference names a class, with white space around it or not, and its canonical URI names the same class again. The two parts are asked for with train=True and train=False; only when one of these calls raises a TypeError are split=train and split=test asked for, and any other error passes to the caller. The samples of a part are its data and targets if it has both, else its items from position 0 up to the first IndexError, with their labels; an item that cannot be read, or has fewer than two entries, fails the load. Filter, limits and seeds of both parts are applied afterwards; without them the samples come as they are. Without torchvision or without the named class nothing is constructed. Three corners fail: an IndexError raised while an item is read ends the data silently; a TypeError inside the test part of a class with train= is replaced by the error of split=; a class that needs both keywords, or a split by another name, cannot be loaded.", "quantifier": "all references, options, data set classes, constructor answers and items", "why_tests_cant": "needs every data set class and every failing call or item", "anchors": ["src/modssc/data_loader/providers/torchvision.py:TorchvisionProvider", "src/modssc/data_loader/providers/torchvision.py:_make_train_test", "src/modssc/data_loader/providers/torchvision.py:_extract_xy"]}
{"id": "C173", "title": "A pretrained audio classifier trains a head on every waveform and keeps a frozen backbone", "statement": "The pretrained audio classifier reads one waveform, waveforms, or waveforms with one channel, given as tensors, and from its backbone a tensor of two dimensions as it is or of three as means over the frames: of a tuple the first part, of a list the last one. A fit needs tensors on one device without an empty dimension, positive batches, epochs and rate, a bundle that loads, one label per waveform and no negative decay; what its first checks refuse leaves classifier and generator as they were. A successful fit builds a head as wide as the features with one output per class and goes through every waveform once in every epoch, in batches of the asked size, each with the position of its label; a frozen backbone comes out as it was loaded. The result does not depend on the random state before, and no seed means seed 0. Scores are given on the device of the labels by the backbone in evaluation mode; predictions are classes with the highest score and change nothing; a classifier without backbone, head or classes does not answer. Two corners fail: a later fit that is refused after the first checks (for example stereo waveforms) leaves the labels of the refused fit beside the head of the earlier one, so predictions answer labels never trained or fail; and after a TypeError inside the download any error of the second call passes instead of the announced one.", "quantifier": "all waveforms, labels, backbones, settings, seeds and earlier states of the classifier", "why_tests_cant": "needs every shape, backbone answer, setting and sequence of fits", "anchors": ["src/modssc/supervised/backends/torch/audio_pretrained.py:TorchAudioPretrainedClassifier", "src/modssc/supervised/backends/torch/audio_pretrained.py:_extract_features", "src/modssc/supervised/backends/torch/audio_pretrained.py:_load_bundle_model", "src/modssc/supervised/backends/torch/common.py:predict_from_scores"]}
{"id": "C174", "title": "A TensorFlow data set is requested under the name and version of its reference and loaded item by item", "statement": "A tfds reference name or name/version, with white space anywhere, requests that data set, with that version if there is one, and its canonical URI names the same data set and version again. The training split is loaded, then the test split; the samples and labels are the two parts of every item, in order. An item without exactly two parts fails with a ValueError, a training split that cannot be loaded with its own error, and without the library nothing is requested. Four corners fail: any error of the test split gives a data set without test split and no error; without as_supervised, items of two features give the names of the features as samples and labels; limits, filter and seed of the options are ignored; a configuration cannot be requested, name/configuration is read as a version.", "quantifier": "all references, options, library answers and items", "why_tests_cant": "needs every reference, failing call and item", "anchors": ["src/modssc/data_loader/providers/tfds.py:TFDSProvider", "src/modssc/data_loader/providers/tfds.py:_split_name_version", "src/modssc/data_loader/providers/tfds.py:_materialize_tfds"]}
{"id": "C175", "title": "Model folders follow the first variable that is set, offline flags are read in any case, and auto names one device for good", "statement": "The root of the models and the folders of torch, Hugging Face, sentence-transformers and OpenCLIP are each named by the first variable of a fixed order that is set to something, and are left open when none is. A flag is on when its variable is there and is not, up to capitals and white space around, empty, 0, false, no or off; one of three flags restricts loading to local files. Announcing the torch folder sets TORCH_HOME when it is missing, touches no other variable and no value that is there, and, with settled paths, announcing again changes nothing and moves no folder. A named device, or none, is passed through. auto with a torch at hand is cuda when torch says so, else mps when it is built, available and accepts a tensor, else cpu; without one, the first answer stays for all later calls. Three corners fail: a TORCH_HOME set to nothing is reported as another folder but stays empty; the kept answer survives the loss of the device; an error of the cuda check reaches the caller, while those of mps count as no.", "quantifier": "all environments, path functions, torch modules and sequences of calls", "why_tests_cant": "needs every environment and every sequence of calls", "anchors": ["src/modssc/cache/model.py:ensure_torch_home", "src/modssc/cache/model.py:env_flag", "src/modssc/cache/model.py:resolve_torch_home", "src/modssc/cache/model.py:resolve_sentence_transformers_cache", "src/modssc/runtime/device.py:resolve_device_name", "src/modssc/runtime/device.py:mps_is_available"]}
{"id": "C176", "title": "The manifest beside a cached data set is read back as written and describes every array", "statement": "Building a manifest never fails to give one that can be written; read back it has the same version, fingerprint and date, and identity, summary, metadata and environment equal up to the order of entries. The summary gives, at the place of every array of the data set (samples, labels, edges, each mask, in the training and the test part), its type, and its shape and dtype exactly when these can be read; a missing test part, edges or masks are null. A manifest is read exactly when the text is a mapping with a readable version and the four other needed entries; metadata and environment default to empty; anything else is refused with a KeyError, TypeError or the error of the reader. One corner fails: nothing else is checked, so a version of 2.5 is read as 2 and any value passes as identity.", "quantifier": "all data sets, manifests, texts and JSON libraries that keep values", "why_tests_cant": "needs every manifest and every text that can be found in a cache", "anchors": ["src/modssc/data_loader/manifest.py:Manifest", "src/modssc/data_loader/manifest.py:build_manifest", "src/modssc/data_loader/manifest.py:dataset_summary", "src/modssc/data_loader/manifest.py:read_manifest", "src/modssc/data_loader/manifest.py:write_manifest"]}
{"id": "C177", "title": "The data set commands ask the loader once, print its answer in order and return its verdict", "statement": "datasets list prints all keys, or those of the wanted modalities in the same order; a description that fails ends it before anything is printed. datasets download --all makes one request with the options given and prints the four counts, then each missing extra with its data sets and each failure with its message, in the order of names; its code is 0 exactly when a report without failures came back, 2 exactly when there are failures or the loader announced one. download --dataset makes one request; downloaded, or skipped for a missing extra when these are ignored, gives 0, an announced failure its message and 2; errors that are not announced pass. Without data set and --all nothing is requested. Purging and collecting ask the cache once and report the number of variants. Three corners fail: by default a data set skipped for a missing extra gives code 0; --skip-cached and --modalities are silently ignored with --dataset, and --dataset with --all; a purge by fingerprint reports success for every fingerprint.", "quantifier": "all loaders, reports, options and keys", "why_tests_cant": "needs every report, failure and combination of options", "anchors": ["src/modssc/cli/datasets.py:download", "src/modssc/cli/datasets.py:list_datasets", "src/modssc/cli/datasets.py:cache_purge", "src/modssc/cli/datasets.py:cache_gc", "src/modssc/cli/_utils.py:exit_with_error", "src/modssc/data_loader/types.py:DownloadReport"]}
{"id": "C178", "title": "The command line starts when every brick is there or lacks a module from outside, and doctor tells which", "statement": "The start succeeds exactly when every brick can be imported with its commands or fails with an import error that names a missing module that is neither the brick nor one of modssc; else it ends with the first other brick and its error. The missing module is the one the error names, else the one quoted in its text, else none. doctor prints one line for a brick that is there, and for another the error, the missing module and the extra advised for that module or else for the brick; its code is 0 exactly when every brick is there and 2 otherwise. Three corners fail: the advice for the inductive and the supervised brick names two extras in one pair of brackets, which pip cannot read; the extra of the module comes before that of the brick, so supervised without torch is advised the graph extra, and parts of torch are unknown; a missing outside module whose name begins with modssc, or an import error without a name, ends the start of all commands.", "quantifier": "all outcomes of the imports", "why_tests_cant": "needs every outcome of nine imports", "anchors": ["src/modssc/cli/app.py:_try_add_typer", "src/modssc/cli/app.py:doctor", "src/modssc/cli/app.py:_missing_module_from_error", "src/modssc/cli/app.py:_is_internal_import_error", "src/modssc/cli/app.py:_extra_hint_for"]}

# Formal model of ModSSC in Rocq (Coq 8.16.1)

## 1. Approach

* The model is a shallow one: every modelled Python function is a total computable Gallina
  function, branch by branch. Exceptions are values (`result A = Ok a | Err kind`), loops are
  structural recursion, folds or explicit fuel with a distinct out-of-fuel value, mutation becomes
  returning the new value. Every definition cites file and lines of /repo.
* External behaviour is never an axiom. Random generators, sort orders with unspecified tie
  breaking, base classifiers, hash functions, floating-point score tables and max-flow solvers are
  universally quantified arguments, with the documented contract of the library call as a
  hypothesis (or a record field with its contract). Each such contract is listed in section 4.
* Files: `XModel.v` (model), `XSpec.v` (small independent specification vocabulary),
  `XProofs.v` (lemmas), `XProps.v` (only theorems closed by `exact`, examples that the hypotheses
  are satisfiable, and `Print Assumptions`).
* When the claim is false of the faithful model, the file has a theorem `..._refuted` giving a
  concrete witness, and the strongest true part is proved beside it (suffix `_partial` where the
  listed property is only partly covered). Those witnesses are collected as findings in section 5.

## 2. Plan per property

| id | modelled as | proof method |
|----|-------------|--------------|
| C01 | `random_split`, `stratified_holdout`, `make_holdout_split` over lists of Z, generator as a record of operations with contracts, float fractions as IEEE binary64 (`SpecFloat`) | permutation reasoning; allocation lemma sum(base)=n_holdout and base<=counts |
| C02 | same | floor/ceil bounds of the allocation, largest remainders first |
| C03 | `plain_kfold`, `stratified_kfold`, `make_kfold_split` | `array_split` lemma: concat = input, sizes differ by <=1; sum over folds |
| C04,C05,C06 | `select_labeled` with its allocation passes over lists of Z | invariants of the add/remove loops; closed form of the total; C06 expected to be refuted |
| C07 | `apply_imbalance` | per-class counting lemmas |
| C08 | `sample_inductive` + `validate_inductive` | composition of C01..C07 |
| C09,C10 | `sample_graph` + `validate_graph` on masks | pointwise boolean reasoning; C10 refuted |
| C11 | Python dictionaries as association lists of JSON-like values | case analysis; unknown keys by list inclusion |
| C12 | string encodings with decimal rendering of integers | parsing/injectivity |
| C13 | directory as finite map from file name to content, save as a list of atomic file-system steps | every prefix of the step list; refuted for overwrite |
| C14 | process pool state machine (lock file present or not, who is inside) | refutation by a trace; invariant for traces without failed acquisition |
| C15,C16 | download as step list over (processed dir, manifest), load as function | prefix induction; C16 refuted |
| C17 | index rows sorted by (uri, created_at desc), fold | invariant of the fold |
| C18 | fold over keys with outcome oracle | partition by induction |
| C19-C22 | edge lists over nat, weights over Q | list/permutation reasoning, specification by membership |
| C23-C25 | distance table as oracle, `argpartition` as contract, chunk loop, work directory as map | chunk induction; resume = recompute; C25 refuted for the sklearn backend |
| C26,C27 | directory map, shard arithmetic | `concat (chunks s l) = l`; prefix induction; overwrite refuted |
| C28 | pipeline with cache keyed by symbolic fingerprints | simulation argument; refutation for structural fingerprints |
| C29 | store as association list, steps with consumes/produces | induction over suffix of steps; refutation for the eager default |
| C30,C31 | nested mappings as rose trees | product lemma, path induction |
| C32 | column lists | filter/complement lemmas |
| C33 | metrics over Q and lists of Z | counting |
| C34,C35 | list transformations with random outcomes as arguments | induction; C35 refuted for the torch swap noise |
| C36,C37 | iteration over matrices of Q | invariant over iterations; C37 refuted |
| C38 | linear system over Q, `solve` as contract | algebra; numpy variant refuted with self-loops |
| C39 | flow network over Q on finite node set, max-flow as contract, DFS with fuel | reachability correctness, weak duality |
| C40 | vectors over Q, linear operator as contract | loop invariant |
| C41,C42 | classifier as oracle, rows as list elements | conservation invariant over rounds |
| C43 | distances oracle, top-k contract, weights over Q | sums; batch induction |
| C44 | same sampling model, two labelling specs | the split is computed before the labelling draws |
| C45 | JSON values as a tree, encoder to code points for both `ensure_ascii` settings | parsing function as left inverse; lone surrogate pair refuted |
| C46 | 32-bit arithmetic on Z | range by `Z.mod`; distinctness refuted |
| C47 | cached dataset store with the metadata normalisation applied on save | structural induction on metadata; long lists refuted |
| C48 | graph operations composed as in the builder | row sums over Q |
| C49,C50 | distance tables as oracles, chunk loops | chunk induction, membership specification |
| C51 | construction with work directory and cache as file-system programs | store invariant, C24 and C26 |
| C52 | leaves of a space with draws threaded through a generator state | draw relation in sequence; prefix lemma |
| C53 | fold over trials with an abstract score order | invariant of the fold |
| C54 | nested metadata dictionaries with aliasing made explicit | case analysis; aliasing refuted |
| C55 | plan resolution over a step registry | induction over the configured steps |
| C56 | label spreading, the machinery of C36 | invariant over iterations |
| C57,C58 | pseudo-labelling and co-training loops over arbitrary classifiers | history lemma: positions taken once, training set after k rounds |
| C59-C63 | tri-training, wrappers' predictions, Setred, democratic co-learning, S4VM | history lemmas; sums over Q; witnesses where class ids and columns differ |
| C64,C65 | label encoding, one-hot scores, backend choice | sorted-list lemmas, `find` |
| C66 | pipeline construction over an arbitrary registry | induction over the steps |
| C67 | `apply_limits` on nested dictionaries; a place is a list of keys and positions | one invariant (governed places obey, others are framed, changes listed) closed under composition, dictionary entries and list elements |
| C68 | `apply_global_seed` on nested dictionaries | lookup after update, injectivity of decimal notation |
| C69 | `select_rows` on row lists and on graph mappings (dictionary of edge index, row arrays, other objects) | characterisation by positions; edges through the contract of `subgraph` |
| C70 | the data given to an inductive method and `evaluate_inductive` | positions of rows and labels; loop over splits by induction on the dictionary of reports |
| C71 | masks built from index sets, hidden labels, `evaluate_transductive` | node numbering by offset, masks as membership, marked positions |
| C72 | `resolve_fit_indices` and the conversion of graph sampling | case analysis, soundness of masks carried to index sets |
| C73 | `BenchIoModel.expand_text`: the regular expression's leftmost scan as a recursion over characters with the previous character; `expand_value` over nested values | text cut into pieces whose placeholders are exactly those of the text (a relation without a scanner); per-place theorem through `value_at`; failure iff some place has an unresolved placeholder |
| C74 | `BenchIoModel`: looking for a free name, mkdir, filling, second look, rename as atomic steps of any number of processes over a set of directories | invariant over every schedule; two refutations by concrete schedules |
| C75 | `BenchIoModel.scan_auto` | places found = places holding an auto text under one of the four keys, by induction on the value |
| C76 | `BenchIoModel.derive_seed`, `trial_label` | injectivity of the hashed text from the decimal printing, range of the big-endian number |
| C77 | `BenchRunModel`: target check, trials (through the search-space model), merging, scores by an arbitrary objective, best trial, limits after the search | recursion over the space against `declares`; frame lemma for deep_merge; refutations by example |
| C78 | `BenchRunModel.sweep_loop`, `run_sweep`, `sweep_seeds` with one run as an arbitrary function from seeds to outcomes | induction over the seeds |
| C79 | `BenchRunModel.summarise`: numeric leaves, grouping by place, statistics, nested writing | grouping equals the per-place list of values; `holds` for the nested result; order of IEEE floats through a lexicographic key for min and max |
| C80 | `DeepBatchModel`: randperm as a generator, slices of a pass, the cycling iterator, labelled and unlabelled side of a fit | strong induction over the steps, one pass at a time; visits counted with count_occ |
| C81 | `DeepBatchModel.predict_proba`: training flag, batches, logits of an arbitrary model | the batches of a pass concatenate to the table; refutation by a model that fails |
| C82 | `DeepBatchModel`: slice_data and concat_data on graphs, prediction of a graph batch by batch | renaming back gives the filtered edge list; positions in the joined edge and weight lists; refutations by example |
| C83 | `DeepLossModel`: probabilities, mask, sharpening, pseudo-labels, masked means, schedules, the loss of one step of FixMatch, DeFixMatch, UDA and Noisy Student | sums with a 0/1 mask are sums over the chosen rows; monotonicity of pow through the division; refutation by temperature 1/50 |
| C84-C87 | `DeepThreshModel`: FlexMatch pool check, class-wise state, mask and fit loop; FreeMatch state, threshold and fit loop; alignment state and rows, AdaMatch mask, SoftMatch weight and statistics; ADSH scores and rectified rows | state invariants over the list of batches (last choice of each pool row; exponential averages as folds); the threshold map is monotone on [0,1]; rank arguments on the sorted list for ADSH; refutations by computed fits |
| C88-C91 | `DeepEmaModel`: warm-up, Temporal Ensembling fit, Mean Teacher fit with teacher initialisation, check and update, MixMatch mixing, targets and step | the memory and the teacher as folds over the history (`running`); averages characterised by `average`; sums over classes by induction over epochs; refutations by computed fits |
| C92, C93 | `CoMatchModel`: ring buffers, distribution alignment, memory smoothing, pseudo-label graph, contrastive loss and the fit loop | invariant of the ring (slot j holds the last row written to it) over any list of batches; graph and smoothing as weighted averages; induction over the steps with the memory described by `memory_at` |
| C94, C95, C96 | `TriNetModel`: label smearing, agreement labelling, noise filters, training passes, round schedule, prediction; the three networks are an abstract state changed by training and by noisy passes | induction over batches, passes, epochs and rounds, chaining the states; schedule read off `scheduled` |
| C97, C98, C99 | `DeepPairModel`: Meta Pseudo Labels steps with the running average, Deep Co-Training batches, FGSM attack, objective, prediction, Pi-Model steps, VAT power iteration; networks and gradients are arbitrary functions of the step and rows | induction over steps, epochs and power iterations; sizes of two cycled streams compared batch by batch |
| C100, C101 | `WalkModel`: symmetrised affinity, isolated nodes, signed labels, the linear system of the lazy walk, kNN sparsification, rounds of dynamic propagation; the solver is any function that returns only solutions | maximum principle for f/sqrt(degree): uniqueness, sign on closed parts; induction over rounds |
| C102, C103 | `PoissonModel`: sources, the operator L + eps I + 11^T/n, conjugate gradient per class; symmetrised weights, Poisson rounds, inner, volume and outer rounds | symmetry and lower bound eps of the operator, reuse of the CG convergence theorem (C40); refinement of the loops to rounds over functions; column-sum invariant |
| C104 – C107 | `GnnModel`: coalescing, loops, normalisation, forward passes in evaluation mode, the training loop, the identity cache | weights per pair; locality by composition of radii; row-stochastic bounds, contraction, existence of the fixed point by conjugate gradient on A A^T (`SolveProofs`); loop invariant against the inductive `kept`; cache invariant over any list of calls |
| C108 | vocabulary fit and transform over any function from texts to words; counter as an insertion ordered dictionary, most_common as the stable descending sort it is documented as | the sorted counter lists before a word exactly the words that precede it; the frequent candidates are a prefix; numbering by induction |
| C109 | hashing tokenizer over any digest, lower and split | range of mod; collisions by pigeonhole |
| C110 | label flattening, unique classes, searchsorted, indexed writes | positions in ascending lists |
| C111 | column classification, numeric and categorical parts, encoder as a list of categories per column | characterisation of each column operation, rows of side by side blocks |
| C112 | boolean selection of columns or rows, fallback pick | positions of true entries |
| C113 | arrays as a shape and a function on indices; layout guess, transposition | `holds` relates an array of each accepted form to its images; each step acts on the prepared batch |
| C114 | repeat, slice and pad along the channel axis | the same invariant |
| C115 | nearest grid resize over any sampling grid, conversion to uint8 | the same invariant; an exact grid meets the hypothesis |
| C116 | broadcasting along the channel axis over rationals | the same invariant |
| C117 | squeeze, reshape in C order | division with remainder, by induction on the shape |
| C118 | imputation, centring, projection over rationals with missing cells, chunk loop writing into an arbitrary buffer; any svd | invariant of the chunk loop; Bessel inequality and orthonormal expansions over finite sums |
| C119 | covariance, W = u diag(1/sqrt(s + eps)) uT; any eigh and inverse square root | variance along w equals the input variance along W w, expanded in the eigenvectors |
| C120 | matrix product with any random matrix | linearity of sums |
| C121 | dense adjacency, both grouping passes with marks, membership matrix, levels; any score | invariant of the grouping loop (marks = grouped nodes, disjoint groups, greedy choice); sums over a partition; induction on levels |
| C122 | coalescing, the two edge sets between positions, conjugate gradient, Newton rounds, softmax; sqrt, power and exp as parameters | the matrix of each round is positive definite, so conjugate gradient reaches the tolerance; induction on rounds; maximum principle at an extreme node; zero support kept by conjugate gradient |
| C123 | weights divided by the total leaving weight, csr and dense matrices, the recurrence | induction on steps; weighted means stay between bounds and contract differences; induction on hops |
| C124 | neighbours, walks with an arbitrary generator, counting dictionary and marginals, positive pointwise mutual information, scaled columns; logarithm and decomposition as parameters | induction on the length of a walk; the counted pairs are a permutation of the pairs of near positions; double sums |
| C125 | the three specifications with the conversions of from_dict, validate and to_dict on Python values; edge weights | case analysis on keys and kinds; order of floats against 0 |
| C126 | binary encoding, batches of a permutation, hinge-loss steps, guesses with balance, repeated labelled rows, rounds and predictions | refinement of a relational description by induction on batches, epochs and rounds; convexity for the subgradient; invariant for the bound |
| C127 | the registry as a dictionary, the lazily repeated built-in registrations, listings and look-ups as steps of a history | invariants over histories (paths kept, keys distinct); induction on the built-in calls |
| C128 | the classifier registry with its bootstrap flag as a state, partial effects of a failing bootstrap kept | invariants over histories; monotonicity (what succeeds on a larger registry succeeds on a smaller one) for the lock |
| C129 | runtime registry, loaded modules and class identities as a state; importing a module executes its decorators | invariants over histories; a simulation between a history and the same history without look-ups |
| C130 | split at the first colon and strip, for an arbitrary notion of white space | characterisation of strip, induction on strings |
| C131 | adjacency lists, walks with explicit generator states, pairs | induction over edges and steps; an inductive description of one draw; enumeration of positions without repetition |
| C132 | the training as a fold of an arbitrary step over batches; numpy and torch generators as states with contracts | batches of an epoch are a cut of a permutation of the pairs; induction over epochs; recording step for the claims about the batches |
| C133 | the checks of the step and the reading of the edge array as shape and entries | case analysis; the training lemmas of C132 |
| C134 | the collecting loop with its switch from allocated arrays to lists, over opaque arrays with kind, shape and element type and arbitrary pipelines | invariant of the loop against an independent description of the rows, in both directions |
| C135 | plans as Python values | case analysis, induction over the steps |
| C136 | breadth-first rings over sets as lists without repetitions, spmm over exact rationals | induction over the hops against shortest paths |
| C137 | the whole fit over arbitrary classifiers, optimizers and generators; losses may be NaN | an inductive description of the rounds and of early stopping, both followed by induction |
| C138 | per-class queues as lists of rows, the dispatch over feature extractors | induction over the batches against the last rows of the history |
| C139 | the whole fit over arbitrary networks and generators; softmax, logarithm, power and norm are parameters | an invariant of the steps ties queues, frequencies and counts to the history |
| C140 | bundles as identities over a heap of models with weights and a frozen flag; an optimizer step is an arbitrary function of the weights and of a recorded objective | every stage is a fold over its batches that touches one cell; composed over the four stages, on success and on failure |
| C141 | the losses on lists of rows with norm and logsumexp as parameters | index arithmetic of the positives; invariance under renumberings that keep views together |
| C142 | the adjacency matrix as a fold over the edges, powers by repeated products of exact rationals in lowest terms, layers as arbitrary functions of a row | induction on k over all walks; a matrix that carries nothing further than r links, through products and layers |
| C143 | draws as arbitrary functions of a generator, views as features and edges, the loss as a function of the representations | counting the training nodes of every class; grouping the softmax weights by class; permutations of the nodes that count |
| C144 | the loop over epochs with the best weights and a bad-epoch counter | an inductive `run` relation for the steps, an invariant that ties the counter to the first best epoch |
| C145 | tensors as shapes with values and a device, the network, optimizer and global generator as parameters, the object with its network and classes | an inductive `trained` relation over epochs and batches; the order-preserving renaming commutes with the sorted classes |
| C146 | the readers of sequences and images, the remembered shape and kernels | relations `sequences` and `images` between the given tensor and the one the network reads; the fit shared with C145 |
| C147 | items as names of files or arrays, loaders as arbitrary functions, waves as lists of samples | the inductive relation `wave_of` from items to waves, `window` for the cut or padded row; existence and uniqueness of the waves |
| C148 | values as arrays, tensors, nested dicts or other objects, devices with an optional number | equivalences with `numpy_ready` and `torch_ready`, induction over nested dicts for devices, the store lemmas for meta |
| C149 | a cache directory as a map from keys to (views file, manifest), the save as steps a crash separates, histories of calls with crash points | invariant over histories: every entry with a manifest was made whole by a call with that key |
| C150 | a matrix as shape text, type text and rows of bytes; the hashed bytes as in the code; a cache as a map | the header has no semicolon inside its fields, rows of one width concatenate injectively; invariant over requests |
| C151 | ExperimentConfig.from_dict over nested dictionaries, section by section | a relational description of each section (`reads`), proved equivalent to the parser; sweeps by looking up every key of the rewritten dictionary |
| C152 | the checks of a run in their order, with the registries, the extras and the dataset as arguments | each check as an equivalence; the redundant ones follow from the scan for auto (C75) |
| C153 | fit, predict and predict_proba of the supervised baseline as functions of the object, over the datasets of C148 | fit as an equivalence with a description of acceptable data; histories by induction from the right; scores by cases on the methods a classifier has |
| C154 | the networks of deep model bundles as lists of layers acting on shapes, built from parameters with optional fields; weights drawn from a seeded generator | construction as an equivalence with a description of good parameters; forward passes characterised exactly by induction on the layers |
| C155 | nested values (None, tensors with devices, arrays, dicts, sequences), their conversion and checks; filling the bundle fields of a specification with the bundles of C154 | induction over nested values; the decision procedure for fields against an inductive description; TriNet from the forward theorems of C154 |
| C156 | filters by masks, limits by positions, the two splits with their seeds | masks and positions as lists of kept positions, composed; the shuffle any permutation |
| C157 | padding of labels, choice of nodes, renumbering of edges, masks | the mapping array as the inverse of the list of kept nodes, by induction over its updates |
| C158 | the constructor, coercion of inputs, fit with the state each outcome leaves, mean aggregation over rational features, prediction | case analysis over fit against a description of good inputs; locality by induction over the layers along walks |
| C159 | white space, splitting and cutting of texts, the pairs of a reference, the merge with options, the identity and the request | lemmas on strip and split; induction over the pairs; case analysis over the settings |
| C160 | paths as parts, their spelling, suffixes and existence; the samples, labels and splits of a data set | spelling round trip by induction over the parts; induction over the entries; case analysis over the builds |
| C161 | the checks, the normalised graph, the two-layer encoder and the order of drawing weights, seeding and epochs | decision procedure equals a specification; entries of the propagation as sums over nodes; epochs as a relation |
| C162 | the bytes hashed for each sample and position | injectivity of the hashed text; decimal digits contain no bar |
| C163 | the element tests with pathlib names, the choice of an encoder, the numeric fallback, lazy loading | decision procedure equals a specification; invariant of the loads over histories |
| C164 | the reference, the identity, the request and the extraction of splits | parsing equals a relation between texts; case analysis over the splits present |
| C165 | layouts of arrays, the preparation of a batch, batching and concatenation | induction over the batches; layouts as an inductive relation |
| C166 | the two statistics builders on top of the samples of C08/C09 | counting lemmas for unique labels and masks; bounds of the index sets from the partition theorems |
| C167 | both readers of plans over nested values; a relation says what a written plan says | from the relation to both readers; refusals as an inductive predicate |
| C168 | the reader of plans of views, on top of the validation of C32 | the same, with well-formedness from ViewsSpec.v |
| C169 | both backends over exact rationals: numpy adds row by row, torch sums equal places into a sparse matrix first; index checks and errors as in each library | both meet the same sum over edges, so they agree; refusals as an equivalence |
| C170 | the network as the layers where a head may be, a backbone and a head; images as sizes with index functions; fit over an object that keeps shape, channels, network and classes | case analysis over the places; invariants of the loop against a relation of trained states; refusals as equivalences |
| C171 | arrays as shapes with row-major rationals; rows as token ids or images; the network as its layers; fit over an object that keeps network, device and classes, also when training fails | refusals as equivalences; induction over batches and epochs against a relation of trained states; induction over blocks for layers and sizes |
| C172 | a data set class as what its constructor answers to its keywords, with the calls made; items as a function of the position; a data set without end as fuel that never suffices | the calls against a relation of two constructions; induction over the items |
| C173 | waveforms as shapes with row-major rationals; answers of a backbone as tensors, lists and tuples; fit over an object that keeps classes, backbone and head one by one | refusals as equivalences; induction over batches and epochs against a relation of trained states |
| C174 | references as text, items as tuples or dictionaries of features, the library as what it answers to name, split and form, with the calls made | text lemmas of C164; induction over the items |
| C175 | the environment as the list of its variables, path resolution as a parameter, a torch module as what its checks answer, the kept answer as a state between calls | case analysis over the variables, text lemmas of C164, induction over the calls |
| C176 | JSON values as PyValue, the JSON library as parameters that keep values up to the order of entries, arrays as what can be read of them | lookup through permutations of entries; paths as lookups |
| C177 | a command as what it prints, the calls it makes and how it ends; the loader and the cache as what they answer | case analysis over answers, induction over keys and sorting |
| C178 | an import as its outcome, the start as the list of the states of the bricks or the first error, doctor as its lines and code | induction over the bricks; text lemmas of C164 |

## 3. Status

Every property has a claim in MANIFEST.json with its theorems. "proved" means that the statement in
properties.jsonl is proved of the model for all inputs, up to the modelling remarks in the claim's note.
"partial" means that the full statement is false of the code or not reached; the note names the
`..._refuted` witness and the `..._partial` theorem, and says what is missing.

Mutation testing: /verif/seeded/LOG.jsonl has one line per wrong program tried. A theorem that survived
a bug it should have caught was tightened (field `tightened`). The tightenings so far replaced model
helpers in statements by separate specifications (metrics, graph normalisation, class counts, min-cut
capacities, random draws) and added missing theorems.

## 4. Trusted base

* The Coq 8.16.1 kernel and its virtual machine (`vm_compute` evaluates the concrete examples and
  refutation witnesses), and the OCaml runtime below them.
* `Print Assumptions` follows every theorem of every `...Props.v` file. For all of them it prints
  "Closed under the global context": no axiom at all is used, neither from the standard library nor from
  here. `SpecFloat` (binary64) and `QArith` are axiom-free. The checker also lists the constants
  of `Coq.ssr.ssrunder.Under_rel` as library axioms: they are parameters of a module type in the
  standard library that some of its files load, and no theorem here depends on them.
* Only the standard library is imported. There are no functors, module types, plugins or disabled checks.
* The reading of the Python source. Nothing is extracted or executed; every definition cites the lines
  it models and says where it simplifies.

### 4.1 Contracts assumed of external code

Each is a hypothesis of the theorems that need it (never an axiom), and an `Example` shows that some
concrete function meets it.

| external code | what is assumed |
|---|---|
| `np.random.Generator` in sampling | `permutation` permutes; `choice(replace=False)` gives distinct members of the asked size; nothing about the distribution |
| `np.argsort` without `kind=` | some permutation of the positions in increasing key order (ties arbitrary) |
| `np.argpartition`, `torch.topk` | k distinct positions, none outside better |
| `sorted()` on strings | a permutation (order not used) |
| file system | operations are atomic steps except file writes, which may be torn by a crash; `os.replace` is atomic; `O_EXCL` creation is atomic |
| blake2b, sha256 | arbitrary functions, or free constructors where the property is about the payload |
| `repr(float)` | injective and never looks like an integer (canonical JSON) |
| SQLite SELECT | the rows of the table, in any order |
| base classifiers | arbitrary functions; score and prediction tables have one row per sample |
| `np.linalg.solve`, `torch.linalg.solve` | returns the solution of a system with exactly one solution, or raises |
| `scipy.sparse.csgraph.maximum_flow` | a maximum integer flow, or raises |
| linear operators (conjugate gradient) | linear; positive definite for the convergence theorem |
| HPO generator | integer draws within their bounds, uniform draws within theirs |
| augmentation generator | `integers(lo, hi)` in range, the two positions of `choice` distinct and valid |
| `np.sqrt` in diffusion | positive on positive arguments |
| `str.lower`, `str()`, `int()` of strings, GPU detection (limits) | arbitrary functions |
| torch_geometric.utils.subgraph | for distinct nodes: the edges between them, in order, renumbered by position (`subgraph_ok`, met by `demo_subgraph`) |
| C73: operating system environment, default directories | arbitrary functions from names to values |
| C74: file system | exists, mkdir(exist_ok=False) and rename are atomic; rename onto an existing directory replaces it if it is empty and raises otherwise (POSIX) |
| C76: SHA-256 | an arbitrary function from texts to bytes |
| C77: objective | an arbitrary function from trial number and configuration to a score or an exception |
| C79: statistics.fmean, statistics.pstdev, sorted | arbitrary functions; any permutation |
| C80: torch.randperm with a generator | arbitrary state machine; `gen_ok`: returns a permutation of 0..n-1 |
| C81, C82: the model, softmax, torch_geometric.utils.subgraph | arbitrary functions (`row_wise` where rows are scored one by one); subgraph keeps the edges inside the node list, in order, renumbered by position in the list |
| C83: softmax, log_softmax, cross_entropy, log, pow, exp, argmax | arbitrary functions; `softmax_ok` (distribution of the same length), `argmax_ok` (a position of the maximum), `pow_ok` (strictly increasing from 0), `exp_ok` (positive, increasing, 1 at 0); infinite and undefined numbers are not modelled |
| C84-C87: argmax, quantile, exp, var, sort | `argmax_ok`; `between_ok` (the quantile lies between two of the values); `exp_ok`; the variance is an arbitrary function; `desc_ok` (a permutation in descending order). Probabilities are rationals |
| C88-C91: networks, softmax, powers, Beta draws | networks are arbitrary functions of step (and weights) and rows with output of the right shape; `softmax_ok`, `pow_ok`; `draws_ok`: Beta gives n numbers in [0,1]; the sequence of student weights is arbitrary but keeps its shapes |
| C92, C93: network, softmax, exp, log, l2 normalisation | the network is an arbitrary function of step and rows with outputs of the right shapes; `softmax_ok`; exp positive (for distributions: similarities at least 1e-12); log and l2 arbitrary |
| C94-C96: networks, generator, softmax, argmax, randn | state machine with arbitrary training and noisy passes whose outputs have one row per input and the width of the head (`nets_ok`); `gen_ok`; `softmax_ok`; `argmax_ok`; randn returns tables of the requested shape |
| C97-C99: networks, gradients, softmax, log, norm, generator | arbitrary functions returning one row per input and one column per class; gradients of the shape of their input; `softmax_ok`; `gen_ok`; `norm_ok` (not negative, positively homogeneous); midpoint convexity of x log(x + 1e-12) for C98_disagreement only |
| C100: np.linalg.solve, sqrt | `solves` (what it returns is a solution), `finds` (it returns when the solution is unique); square roots exact on the total strengths of the graph; `checked_solve`, `cramer` show that the contracts can be met |
| C101: np.argpartition | `picks_largest`: k different columns other than the node itself, none smaller than one left out; met by `ex_top_ok` |
| C102: np.sqrt | exact on the products of degrees of the graph (`exact_products`), met by `C102_runs` |
| C103: argmax | `argmax_ok` (C83): an index of a largest entry |
| C104, C105: torch.rsqrt | gives equal values on equal rationals (`same_value`), only for sym |
| C105: torch.exp | positive, 1 at 0 |
| C106, C107: step, val_loss, init, opt, seeded | none: any functions |
| str.lower, str.split (C108, C109) | any function from texts to words; special words not among them (proved for lower-cased ASCII and the default words); for the hashing tokenizer no empty word, and any digest |
| sklearn OneHotEncoder (C111) | the categories of a column are its values, each once, in any order; unknown values give zeros or ValueError; an array without rows is refused |
| numpy Generator (C112) | random(n) gives n numbers in [0, 1); integers(0, n) a number in [0, n) |
| np.linspace(...).astype(int64) (C115) | inside the axis, monotone, starts at 0, ends at the last position, identity when the size is the same |
| np.linalg.svd (C118) | min(n, d) orthonormal rows v, X = U diag(s) v with orthonormal columns in U and descending s, for the matrix at hand; shape only for C118_row_by_row, orthonormal rows only for C118_distances |
| np.linalg.eigh, np.sqrt (C119) | orthogonal u with C = u diag(s) uT for the covariance at hand; the inverse square root of each s + eps is positive with the right square |
| `power_ok`, `exp_ok` (p-Laplace) | a power with positive exponent is non-negative on non-negative numbers and a function of the value; exp is positive, increasing and 1 at 0 (`toy_power_ok`, `toy_exp_ok`) |
| `choice_ok`, `choice_p_ok` | rng.choice returns one of the items, with probabilities one of positive probability (`C124_case`) |
| `svd_factors` | U diag(s) V is the matrix at hand with orthonormal U, V and descending s (`C124_case`) |
| `perm_ok`, `sorts_positions` | rng.permutation returns the items in some order; np.argsort returns all positions by increasing key (`C126_case`) |
| `N2vSpec.rng_ok` | numpy Generator: integers(0, n) in range, choice returns an element of positive probability, shuffle permutes, choice with a size has that shape and range; satisfied by `first_rng` |
| `N2vSpec.pow_ok`, `randperm_ok` | x ** 0.75 is positive for x >= 1; torch.randperm is a permutation |
| C137_fit, C137_rows | the predictions of a classifier have one entry per class; for C137_rows they are distributions (`C137_case_contracts`) |
| C139_objective, C139_targets | softmax rows are distributions, argmax is a most likely class, one row of outputs and features per sample with constant widths, parameters keep their shapes, the power is increasing with 0 at 0 (`C139_ex`) |
| C140_stages, C140_rejects, C140_predictor, C140_second_refuted, C141_objective | randperm permutes, one row of outputs per input row with constant widths, labels within the classes, log_softmax keeps the length (`C140_stages_ex`, `C141_ex`) |
| C141_symmetric | logsumexp does not depend on the order of its arguments (`C141_ex`) |
| C142_powers, C142_symmetric | the reciprocal square root gives equal results on equal numbers (`C142_hypotheses`) |
| C142_predict | every network has a layer, softmax keeps the length (`C142_hypotheses`) |
| C143_support, C143_views | choice without replacement draws different members, random draws numbers of [0, 1), the reciprocal square root gives equal results on equal numbers (`C143_hypotheses`) |
| C143_neighbours, C143_targets, C143_loss | softmax gives a distribution of the same length; log(p ** -t) respects equality and is 0 for t = 0 (`C143_hypotheses`) |
| C144_labels | a step depends on the values of the loss only (`gx_step`) |
| C145_mlp_training, C145_logreg_training, C145_predict, C146_* | randperm draws a permutation; a network has as many outputs as its last size, before and after a step; softmax gives a distribution, argmax a position of the largest entry (`C145_hypotheses`) |
| `as_tensor` (C148) | torch.as_tensor gives an int64 tensor on the device asked for; `ax_as_tensor` satisfies it |
| `payload_fp`, `views_fp`, `sha`, `graph_key` (C149, C150) | arbitrary; `collision_free` is a hypothesis where needed (`vx_views_fp_ok`, `bx_sha_ok`, `bx_key_ok`) |
| `compute`, `build`, `valid_spec` (C149, C150) | arbitrary functions of graph, X, spec and seed |
| `metrics`, `has_backend`, `step_info`, `extra_ok`, `method_extra`, `load` (C151, C152) | arbitrary; `sort` permutes |
| `create`, `train`, `scores_of`, `proba_of`, `predict_of`, `classes_of` (C153) | arbitrary functions of the state of a classifier |
| `seeded`, `draw`, `pretrained` (C154) | arbitrary functions; the two pretrained networks are not modelled |
| `asarray`, `select`, `factory` (C155) | arbitrary functions; the first for objects that are neither arrays, tensors nor dicts, the second is slicing (C69), the third the configured factory of bundles |
| `shuffle` (C156, C157) | for every seed and size a permutation of the positions; instance `px_shuffle` |
| `init`, `epoch` (C158) | draw and update weights of the sizes of the layers; arbitrary otherwise; instance `hx_init` |
| `softmax`, `argmax`, `act`, `lower` (C158) | softmax keeps the length of a row, argmax of a row is a position in it; the activations and lower-casing are arbitrary |
| `o` (C159) | int() of a text and str() of a value, arbitrary; instance `ox` |
| `exists_`, `build` (C160) | which files exist and what building the data set returns, arbitrary; instance `zx_exists` |
| `lin1`, `lin2`, `init`, `seeded`, `choices`, `update`, `integers`, `rsqrt` (C161) | layers, initialisation, seeding, epoch choices, optimizer step, step generator, 1/sqrt (respects equality of rationals), otherwise arbitrary; instances `dx_lin`, `dx_init`, `dx_choices`, `dx_update`, `dx_integers`, `dx_sv` |
| `draw` (C162) | SHA-256 and the generator it seeds: arbitrary rows of dim numbers, telling texts apart where said; instance `ax_draw` |
| `show_bytes`, `as_float`, `load`, `encode` (C163) | str of bytes ends with a quote or parenthesis; cast, loading and encoding arbitrary; instances `ax_show`, `ax_load`, `ax_enc` |
| `o` (C164) | str of values, arbitrary oracle as in C151 |
| `features` (C165) | the network in evaluation mode: an arbitrary function of the pixels of one image; instance `tvx_features` |
| `Oracle` (C167, C168) | what Python prints for other values than texts; the two findings about None assume it prints None (instance `ppx_oracle`) |
| `root` (C169) | the square root is any function that respects equality of rationals (instance `demo_root`); eps is any rational, positive where totals are divided by themselves |
| `step`, `randperm`, `argmax` (C170) | a step in evaluation mode without optimization keeps backbone and generator (`eval_keeps`), randperm gives a permutation, argmax a largest score (instance `C170_applies`); loading, new heads, scores are arbitrary |
| `order`, `argmax` (C171) | the loader gives a permutation of the rows, argmax a largest score (instance `C171_applies`); building, steps, outputs, softmax and generators are arbitrary |
| constructors and items of torchvision data sets (C172) | arbitrary answers and errors, no contract |
| `run`, `randperm`, `argmax`, `outputs` (C173) | evaluation keeps backbone and generator (`eval_keeps`), randperm gives a permutation, argmax a largest score, training keeps the number of outputs (instance `C173_applies`); bundles, steps, scores are arbitrary |
| answers of `tfds.load` (C174) | arbitrary items and errors, no contract |
| `Path.expanduser().resolve()` (C175) | not empty, idempotent, and stays put below a settled path (only for the second announcement); instance `C175_paths_exist` |
| `json.dumps`/`json.loads` (C176) | reading what was written gives a mapping equal up to the order of entries; instance `C176_format_exists` |
| answers of the data loader and the cache (C177) | arbitrary, no contract |
| outcomes of imports (C178) | arbitrary, no contract |

### 4.2 What is modelled

| part of /repo (src/modssc unless it starts with bench/) | model |
|---|---|
| sampling: api, plan, splitters, labeling, imbalance, storage, result, utils | SamplingModel, SampleServiceModel, PlanModel, SeedModel, SplitStoreModel |
| data_loader: cache layout, locks, manifest, index, api download/load/purge/gc | DatasetCacheModel, LockModel, IndexModel |
| graph: validation, symmetrize, self-loops, weights normalisation, masks, kNN/epsilon/anchor construction (numpy; faiss and sklearn wrappers), graph cache, chunk cache | GraphOpsModel, KnnModel, GraphCacheModel |
| hpo: space, grid, random, patching, best trial | HpoModel |
| evaluation metrics | MetricsModel |
| views | ViewsModel |
| canonical JSON and hashing payloads | JsonModel |
| preprocess: plan resolution, executor, step cache, purge | PreprocModel |
| transductive: label propagation and spreading (numpy), Laplace learning, graph min-cut, conjugate gradient, dataset validation | TransModel, MincutModel |
| inductive: selection helpers, pseudo-label, self-training, co-training, tri-training, democratic co-learning, Setred, S4VM, wrappers' predictions | InductModel, EnsembleModel, DemoModel |
| supervised: label encoding, kNN classifier, default scores, classifier creation | SupervisedModel |
| data_augmentation: every operation, pipeline, strategy, build_pipeline | AugModel |
| bench/limits.py, bench/seed_sweep.py | LimitsModel |
| bench/orchestrators/{slicing,evaluation,method_inductive,method_transductive,preprocess}.py, bench/main.py 76-96, 274-295 | BenchEvalModel; arrays are row lists; numpy/torch conversions, devices, views and logging left out |
| `bench/utils/io.py` | placeholders, per-place expansion, root check; not YAML, JSON or writing |
| `bench/context.py`, `bench/utils/hashing.py` | next_available_run_dir, ensure_dirs, seed_for, derive_seed; not time stamps |
| `bench/main.py` 324-346, 465-470, 506-535 | auto scan, its refusal, renaming of the run directory |
| `bench/orchestrators/hpo.py` | _validate_space_targets, run_hpo without files; `_objective_value`, `_aggregate` are the objective |
| `bench/main.py` 896-905, 1020-1091; `bench/orchestrators/reporting.py` 83-198 | limits after the search, sweep loop, summary; not the per-run report |
| inductive/methods/helpers/torch_support.py: num_batches, _iter_batch_indices, cycle_batch_indices, cycle_batches, predict_proba_from_bundle, slice_data, concat_data | `DeepBatchModel.v`; not modelled: devices, dtypes, nested model outputs, extract_logits, freeze_batchnorm, parameter and shape validation of bundles |
| inductive/methods/{fixmatch,defixmatch,uda,noisy_student}.py: the loss of a step | `DeepLossModel.v`; not modelled: gradients, optimizer steps, batch-norm freezing, training of the teacher, logging |
| inductive/methods/{flexmatch,free_match,adamatch,softmatch,adsh}.py: the state between steps, thresholds, masks and weights | `DeepThreshModel.v`; the losses are those of C83; not modelled: float rounding, device and dtype checks, logging, ADSH majority resolution |
| inductive/methods/{temporal_ensembling,mean_teacher,mixmatch}.py: fit loops, memory, teacher, mixing and losses | `DeepEmaModel.v`; not modelled: optimiser and gradients (the student weights are arbitrary), buffers of the teacher, graph inputs of MixMatch, float rounding |
| inductive/methods/comatch.py: memory, alignment, graph, contrastive loss, fit loop | `CoMatchModel.v`; not modelled: optimiser, devices, use_cat (an instance of the arbitrary network), graph inputs, float rounding |
| inductive/methods/trinet.py: smearing, labelling, filters, training order, rounds, predict_proba | `TriNetModel.v`; not modelled: optimiser steps inside `learn`, devices, graph inputs, the check that parameters are shared beyond their identities, float rounding |
| inductive/methods/meta_pseudo_labels.py, deep_co_training.py, pi_model.py, vat.py | `DeepPairModel.v`; not modelled: optimiser steps, devices, dict inputs, the freezing of batch normalisation, what torch does with labels out of range in Deep Co-Training (it makes no check of its own), float rounding |
| transductive/methods/classic/lazy_random_walk.py, dynamic_label_propagation.py | `WalkModel.v`, numpy versions; not modelled: torch versions, float rounding |
| transductive/methods/pde/poisson_learning.py, poisson_mbo.py | `PoissonModel.v`, numpy versions; not modelled: torch versions, float rounding |
| transductive/methods/gnn/common.py, sgc, appnp, gcn, graphsage, chebnet, gcnii, gat, grand | `GnnModel.v`; not modelled: dropout masks and gradients (inside the arbitrary step), devices, number types, GRAND consistency loss (inside step), Planetoid, N-GCN, H-GCN, GraFN, GraphHop |
| preprocess/steps/text/vocab_tokenizer.py, hash_tokenizer.py | `TokModel.v`; not modelled: containers of texts other than lists, Unicode tables |
| preprocess/steps/labels/ensure_onehot.py, tabular/one_hot.py, graph/edge_sparsify.py, graph/attach_edge_weight.py | `StepModel.v`; not modelled: string labels, float32 rounding, arrays that are not two dimensional |
| preprocess/steps/vision/layout.py, channels_order.py, ensure_num_channels.py, resize.py, normalize.py, squeeze.py, preprocess/steps/core/ensure_2d.py | `VisModel.v`; not modelled: memory layout, number types other than the uint8 conversion, float rounding, as_list |
| preprocess/steps/core/pca.py, core/random_projection.py, vision/zca_whitening.py | `PcaModel.v`; not modelled: rounding, arrays of other dimensions, float32 conversion |
| transductive/methods/gnn/h_gcn.py | `HgModel.v`: coarsening, levels, pooling, predict_proba; not modelled: the layers of the network and its training |
| transductive/methods/pde/p_laplace_learning.py | `PlapModel.v`: all of it over exact rationals |
| graph/featurization/views/diffusion.py, graph/featurization/ops/adjacency.py | `GvModel.v`: all of it over exact rationals, on edges inside the graph; sparse inputs and their size limit are not modelled |
| graph/featurization/views/struct.py | `GvModel.v`: all of it; p and q positive; the branch of `_cooccurrence_counts` without n_nodes, which no code calls, is not modelled |
| graph/specs.py, graph/construction/ops/weights.py | `GsModel.v`: all of it; `dict` of a list of pairs is not modelled |
| transductive/methods/classic/tsvm.py | `TsvmModel.v`: all of it over exact rationals; the initial weights, the permutations, np.argsort and np.exp are parameters; non-rectangular features are not modelled |
| utils/registry.py, inductive/registry.py, transductive/registry.py | `RegModel.v`: all of it, with the shipped lists; importing a class is an arbitrary function; debug registries and MethodInfo are not modelled |
| supervised/registry.py, registry_data.py | `RegModel.v`: all of it with the shipped list (required_extra and supports_gpu are carried along) |
| data_augmentation/registry.py, utils/imports.py | `RegModel.v`: register_op, _get_cls, available_ops and the import of the modules of ops/; creating the instance and op_info are not modelled |
| data_loader/uri.py | `RegModel.v`: all of it over ASCII strings, for an arbitrary notion of white space |
| graph/featurization/node2vec.py | `N2vModel.v`: all of it over exact rationals |
| transductive/methods/gnn/planetoid.py | `N2vModel.v`: fit after prepare_data, predict_proba; the loss, Adam and the initial weights are an arbitrary step and an arbitrary initialiser |
| preprocess/steps/graph/node2vec.py | `N2vModel.v`: transform with the number of nodes given; the optimiser step is arbitrary |
| bench/orchestrators/augmentation.py | `BaugModel.v`: _check_unknown_keys, _plan_from_dict, run; the pipelines are arbitrary functions of sample and context, devices and logging are left out |
| transductive/methods/gnn/graphhop.py | `HopModel.v`: the hop edges, averages, _train_lr, fit, predict_proba; the weights, the optimizer and the torch generator are parameters |
| inductive/methods/daso.py | `DasoModel.v`: queues, prototypes, pseudo-labels, frequencies, the loss, the averaged weights and the checks of fit; the network, its features and the optimizer are parameters, use_cat and detach_target do not change the values |
| inductive/methods/simclr_v2.py | `ClrModel.v`: losses, checks, bundles, the four stages over shared models, the final bundle, prediction on tensors; type, dimension and device checks and dict inputs are left out, distinct models share no parameters, detach_target and freeze_bn do not change the values |
| transductive/methods/gnn/n_gcn.py | `NgcnModel.v`: all of it in evaluation mode; float32 becomes rationals in lowest terms, the gradient step, the initial layers and softmax are parameters, devices and the identity cache (modelled in `GnnModel.v`) are left out |
| transductive/methods/gnn/grafn.py | `GrafnModel.v`: all of it; the encoder, optimizer, softmax, row normalisation, cosine, cross entropy and generators are parameters, float32 becomes rationals, devices and logging are left out |
| supervised/backends/torch/{logreg,mlp,text_cnn,image_cnn}.py, common.py (predict_from_scores, make_softmax_scores_method) | `TclfModel.v`: fit, scores and predict; layers, AdamW, softmax and the global generator are parameters, float32 becomes rationals, non-contiguous tensors, label dtypes and logging are left out |
| preprocess/steps/audio/load_waveform.py | `WaveModel.v`: all of it; torchaudio.load and resample and scipy.io.wavfile.read are parameters, samples are rationals, the mean of no channels (nan) and bytes that need escapes are left out |
| inductive/validation.py, inductive/adapters/numpy.py, inductive/adapters/torch.py | `AdaptModel.v`: all of them; contents of arrays are identities, objects that are neither arrays, tensors nor dicts have no attributes ndim, shape and device, the device attribute of an array (numpy 2) is a parameter |
| graph/featurization/api.py graph_to_views, graph/cache.py ViewsCache, graph/fingerprint.py fingerprint_array, the key of build_graph | `VcacheModel.v`; not modelled: sparse matrices in fingerprint_array, purge |
| bench/schema.py, bench/main.py _preflight, _benchmark_contract_preflight, step ids, the configuration of a sweep run | `SchemaModel.v`; not modelled: error codes and messages, keys that are not texts |
| inductive/methods/supervised.py, classifier_bridge.py up to predict_scores | `SblModel.v`; not modelled: float32 rounding, nan, logging, an installation without torch |
| inductive/deep/bundle_factories/factory.py and the networks of supervised/backends/torch/{image,audio,text}_cnn.py | `BundleModel.v`, shapes only; not modelled: the pretrained networks, values, devices, the meta entries for mixup, negative channel numbers |
| bench/orchestrators/method_inductive.py, inputs and bundles; inductive/methods/trinet.py `_forward_shared`, `_forward_head` | `InjModel.v`; not modelled: rounding to float32, logging, the fit itself, device strings other than by equality |
| data_loader/providers/common.py `apply_limits` and its parts, the limits in torchvision.py and hf.py; data_loader/providers/pyg.py choice of nodes, `_subset_graph`, `_pad_labels`, `_as_edge_index` | `ProvModel.v`; integer labels, features by rows; not modelled: downloads, floating or object labels (their padding), edge arrays that are not two-dimensional |
| supervised/backends/torch/graphsage_inductive.py | `GsiModel.v`; rational numbers; gradients, Adam and dropout inside `epoch`; not modelled: devices, conversions of dtypes, logging |
| data_loader/providers/openml.py | `OmlModel.v`; references, identities and the request; texts of ASCII characters; not modelled: the download, conversion to numpy (the limits are C156) |
| data_loader/providers/torchaudio.py | `TaudModel.v`; POSIX paths of ASCII text, one leading slash; the limits are C156; not modelled: the download, conversion of waveforms, identities |
| preprocess/steps/graph/dgi.py | `DgiModel.v`; the loss and its gradient are inside `update`; not modelled: devices, float32 |
| preprocess/models_backends/stub.py, preprocess/steps/embeddings/auto.py | `AutoModel.v`; ASCII text and POSIX paths; what a list or tensor becomes as an array is an arbitrary part of the input; not modelled: float32 rounding |
| data_loader/providers/hf.py | `HfModel.v`; ASCII text, integer labels; the limits are C156; not modelled: the download |
| preprocess/models_backends/torchvision_image.py | `TviModel.v`; not modelled: loading of models, the hook on their head, devices, float32 |
| sampling/stats.py | `StatsModel.v`; keys of classes are integers instead of their texts |
| preprocess/plan.py, bench/orchestrators/preprocess.py (plans), bench/orchestrators/views.py | `PplanModel.v`; not modelled: YAML text, the meta of views, logging |
| transductive/backends/numpy_backend.py, transductive/backends/torch_backend.py (products and normalisation), transductive/operators/spmm.py, normalize.py, laplacian.py | `TbackModel.v`; not modelled: devices, float32 rounding, conjugate gradient of torch (the numpy one is in `TransModel.v`) |
| supervised/backends/torch/image_pretrained.py, supervised/backends/torch/common.py (scores and predictions) | `IpreModel.v`; not modelled: names of pretrained weights, dtype of the images, NaN settings |
| supervised/backends/torch/lstm_scratch.py, supervised/backends/torch/audio_cnn_scratch.py | `ScrModel.v`; not modelled: inputs numpy cannot turn into numbers, NaN, layer sizes torch refuses |
| data_loader/providers/torchvision.py | `TvdModel.v`, with the limits of `ProvModel.v`; not modelled: the folder of the raw data, dtypes of the arrays, data sets with an iterator of their own |
| supervised/backends/torch/audio_pretrained.py | `AftModel.v`; not modelled: NaN, dtypes, gradients; features of a wrong size raise one error |
| data_loader/providers/tfds.py | `TfdModel.v`; not modelled: the data folder, conversion of items to numpy |
| cache/model.py, runtime/device.py | `McdModel.v`; not modelled: the one-entry cache of `mps_is_available` |
| data_loader/manifest.py | `MfsModel.v`; not modelled: the clock, the file itself, `dict()` of a sequence of pairs |
| cli/datasets.py | `CldModel.v`; not modelled: parsing of options, log levels, `providers`, `info` and `cache ls` |
| cli/app.py | `DocModel.v`; not modelled: version and log options, help texts, the JSON form of doctor |

### 4.3 What is not modelled

* Neural training code: the deep inductive methods, GNN methods, torch modules; their loss values,
  gradients and optimiser states.
* Floating point except in sampling fractions, where it is exact binary64. Elsewhere reals are exact
  rationals, as each model file says.
* Third-party libraries, the network, archive extraction, logging, the command line's printing.
* Concurrency except for the cache lock (C14).
* GPU devices and dtype conversion.

## 5. Findings

Behaviours of the code that contradict what a user would rely on, each with its machine-checked witness.

| where | finding | theorem |
|---|---|---|
| sampling/labeling | `per_class=v` can label more than v samples of a class | C06_per_class_refuted |
| sampling/labeling | a count of 0 still labels one sample per class | C05_zero_labels_refuted |
| sampling/splitters | stratified folds need not have balanced sizes | C03_stratified_fold_sizes_refuted |
| sampling/api (graph) | train imbalance is ignored for graphs | C10_graph_train_imbalance_refuted |
| sampling/storage | a crash while overwriting leaves new metadata with old arrays | C13_overwrite_crash_refuted |
| sampling/storage | an interrupted save blocks the retry | C13_interrupted_save_blocks_retry |
| sampling/utils | mixed seeds depend on seed + salt only | C46_mixed_seeds_distinct_refuted |
| data_loader/cache | a refused process deletes the holder's lock | C14_lock_mutex_refuted |
| data_loader/cache | after a hard crash the first retry fails on the stale lock | C15_immediate_retry_refuted |
| data_loader/cache | a crash in a forced re-download leaves an entry that every ordinary load rejects | C16_forced_redownload_refuted |
| data_loader/storage | metadata lists of more than 50 items are lost | C47_long_metadata_refuted |
| graph/ops | out-of-range node ids are moved onto the last node by symmetrize | C19_out_of_range_refuted |
| graph/masks | overlapping splits are accepted | C22_overlap_refuted |
| graph/builder | `directed=False` although row normalisation made the weights asymmetric | C48_rw_undirected_flag_refuted |
| graph/construction | a negative chunk size silently gives no edges | C23_negative_chunk_refuted |
| graph/construction | resuming with another k returns stale edges | C24_stale_directory_refuted |
| graph/construction | the sklearn backend gives k + 1 neighbours when points coincide | C25_sklearn_refuted |
| graph/construction | a missing anchor (-1) means the last anchor | C50_missing_anchor_refuted |
| graph/cache | a negative shard size loses all edges | C26_negative_shard_refuted |
| graph/cache | `overwrite=False` keeps a stale weight file | C26_stale_weights_refuted |
| graph/cache | a crash while overwriting loses the weights, or leaves an unreadable entry | C27_overwrite_loses_weights_refuted, C27_unreadable_entry_refuted |
| preprocess | an undeclared read gives a stale cache hit | C28_undeclared_read_refuted |
| preprocess | datasets fingerprinted by shape share cache entries | C28_shape_fingerprint_refuted |
| preprocess | an interrupted random step leaves one split cached, the other redrawn | C28_interrupted_random_step_refuted |
| preprocess | purging fails with KeyError for every plan that produces its output | C29_purging_a_produced_output_refuted, C29_default_plan_refuted |
| hpo | deep_merge is not associative; dotted keys collide when flattened | C31_associativity_refuted, C31_flatten_dots_refuted |
| views | the two-view plan accepts inputs on which it then fails | C32_two_view_runs_iff |
| views | views of a view mutate the first view's metadata | C54_metadata_refuted |
| canonical JSON | a string holding a lone surrogate pair collides with the character | C45_lone_surrogates_refuted |
| data_augmentation | two edges written one per row are read as columns | C34_edge_rows_refuted |
| data_augmentation | numpy and torch flip different axes of the same array | C34_layouts_agree_refuted |
| data_augmentation | torch swap noise is not reproducible | C35_swap_noise_torch_refuted |
| transductive | a class seen only on hidden nodes makes label propagation raise | C37_hidden_label_raises_refuted |
| transductive | numpy Laplace learning counts a self-loop twice | C38_numpy_self_loop_refuted |
| transductive | min-cut columns are sides, not class ids | C39_columns_are_not_classes_refuted |
| inductive | a negative max_new is not refused | C42_negative_max_new_refuted |
| inductive | tri-training labels rows with column numbers | C59_pseudo_labels_refuted |
| inductive | signed decision scores are reversed by the row normalisation | C60_signed_scores_refuted, C60_binary_decision_refuted |
| inductive | tri-training's predict uses the first learner's classes | C60_tri_predict_refuted |
| inductive | Setred's kNN graph has self-loops when rows coincide | C61_knn_graph_refuted |
| inductive | democratic co-learning returns the first class when all weights are 0 | C62_unanimous_prediction_refuted |
| supervised | a negative batch_size gives all-zero rows and the smallest label | C43_negative_batch_refuted |
| bench limits | a sample limit leaves `max_train_samples: null` (no bound) alone | C67_null_is_not_limited_refuted |
| bench limits | a batch size left to its default is not limited | C67_default_batch_size_is_not_limited_refuted |
| bench row selection | per-edge arrays such as `edge_weight` are cut with node numbers, so weights no longer match the edges | C69_edge_weight_refuted |
| bench evaluation | predictions are column numbers but labels are compared as they are: with labels 1 and 2 a perfect classifier gets accuracy 0 | C70_labels_must_be_column_numbers_refuted |
| bench transductive | only unlabelled training nodes are hidden: labels of validation and test nodes are visible in the labels passed to `fit` | C71_held_out_labels_visible_refuted |
| C74 | `ensure_dirs` looks for a free name and makes the directory in two steps: of two runs starting together with the same wanted name one stops with FileExistsError although the next number is free | `C74_concurrent_start_refuted` |
| C74 | `_sync_ctx_run_identity` renames the run directory onto a name found free earlier; POSIX rename replaces another run's still empty directory, and both runs write into it | `C74_rename_shares_refuted` |
| C77 | limits are applied to the configuration before the search and to the merged result after it, not to the trials: with a batch limit of 32 and candidates 64 and 128 the final run uses 32, which no trial used, and reports the score of 128 | `C77_limits_after_search_refuted` |
| C77 | a candidate value that is a mapping is merged with the base's mapping, so keys the candidate does not have survive | `C77_mapping_candidate_refuted` |
| C79 | a run that raises (fail_fast off) leaves no report; the sweep summary then says success with failed_run_count 0 while the exit code is 1 | `C79_raised_run_is_missing_refuted` |
| C81 | predict_proba switches the model to evaluation mode without try/finally, so a failed prediction leaves it there | `C81_mode_restored_refuted` |
| C82 | slicing a graph input keeps the edge weights of the whole graph (or picks them by node number when there are as many edges as nodes), so edges get other edges' weights | `C82_slice_keeps_weights_refuted` |
| C82 | joining weighted and unweighted graphs drops the missing weights, so weights move to other edges | `C82_concat_mixed_refuted` |
| C82 | predict_proba on a graph input drops every edge between two batches, so probabilities depend on the batch size | `C82_predict_batch_size_refuted` |
| C83 | sharpen_probs divides by max(sum, 1e-12): at a low temperature (1/50 with two equal classes) the soft targets do not sum to 1 and their loss all but vanishes | `C83_sharpening_refuted` |
| C84 | FlexMatch accepts repeated and negative idx_u when ulb_size is given: two rows then share one entry of the state; without it, sizes are checked properly | `C84_pool_refuted` |
| C84, C85 | FlexMatch, FreeMatch, AdaMatch and SoftMatch keep their running statistics across fits of one object: a second fit uses other rows than a new object would, and FlexMatch stops with IndexError when the second pool is larger | `C84_second_fit_refuted`, `C85_second_fit_refuted` |
| C86 | a class whose running target has died out turns a row that is sure of it into a row of zeros | `C86_dead_target_refuted` |
| C86 | SoftMatch with per_class: a class with at most one predicted row per batch is averaged towards mean 0 and variance 1, so any of its predictions soon has full weight | `C86_rare_class_refuted` |
| C86 | SoftMatch weighs a row by its aligned probabilities but labels it by the raw ones, so a pseudo-label of small aligned probability can have full weight | `C86_weight_class_refuted` |
| C87 | ADSH: if no row predicted as the majority class is confident, rho falls back to 1 and every row predicted as a minority class is used, even at a lower probability than an unused majority row | `C87_no_confident_majority_refuted` |
| C88 | Temporal Ensembling divides the average of e epochs by 1 - alpha^(e+1) instead of 1 - alpha^e: targets sum to less than 1, and in the first epoch they are all 0 and pull predictions towards 0 | `C88_targets_are_distributions_refuted`, `C88_first_epoch_targets_refuted`, `C88_target_total` |
| C89 | with a warm-up and a single step in all (one epoch, one batch) the unlabelled loss has weight 0: the unlabelled data are ignored | `C89_unlabelled_rows_count_refuted` |
| C90 | Mean Teacher does not compare the sizes of X_u_w and X_u_s: a shorter X_u_s ends in IndexError in mid-fit, a longer one is cut silently | `C90_views_must_match_refuted` |
| C91 | MixMatch draws its mixing weights from the process-wide random state instead of the seeded generator: fits with equal seeds differ | `C91_seed_determines_mixing_refuted` |
| C92 | CoMatch keeps the first rows of a batch larger than its memory: with queue_size up to the unlabelled batch size no labelled row is ever remembered, although the labelled rows carry the only certain labels | `C92_newest_rows_refuted`, `C92_small_memory` |
| C94 | Tri-Net counts classes as the greatest labelled class plus one: when the last class has no labelled row, heads of the right width end the fit in a RuntimeError; when only class 0 is labelled, targets of width 1 are broadcast and every class is pushed up alike, silently | `C94_missing_last_class_refuted`, `C94_targets_fit_heads_refuted` |
| C97 | the running average of the changes is updated before it is subtracted, so the feedback to the teacher is mpl_ema times the intended difference, and with the accepted mpl_ema = 0 it vanishes whatever mpl_weight is | `C97_feedback`, `C97_no_feedback`, `C97_student_matters_refuted` |
| C99 | VAT divides directions by max(length, 1e-12): a zero gradient leaves a zero perturbation and the unlabelled loss then compares rows with themselves | `C99_length_refuted` |
| C100 | the two columns of the lazy random walk are the two classes found, not classes 0 and 1: with shown classes 0 and 2, class 2 is reported as column 1 | `C100_columns_are_classes_refuted` |
| C100 | when one class is shown, the hidden labels decide whether it is the first or the second class, or whether the fit fails | `C100_hidden_labels_refuted` |
| C100 | nodes joined to no labelled node have score 0 and are always given the second class | `C100_separate_part` |
| C101 | predict_proba of dynamic label propagation returns rows that do not sum to 1; a negative lambda is accepted and gives negative scores | `C101_rows_are_distributions_refuted`, `C101_negative_lambda_refuted` |
| C102 | with laplacian_kind = rw the operator is not symmetric and conjugate gradient does not solve it in n rounds, already on two nodes | `C102_random_walk_refuted` |
| C102 | predict_proba of Poisson learning returns rows that sum to 0 with negative entries | `C102_rows_sum_to_zero`, `C102_rows_are_distributions_refuted` |
| C102, C103 | a class that only unlabelled nodes have makes the fit fail with ValueError, so hidden labels can stop a run | `C102_hidden_class_refuted`, `C103_hidden_class_refuted` |
| C103 | with b_strategy = true the hidden label of a node decides the class predicted for that very node | `C103_hidden_labels_refuted` |
| C103 | Poisson MBO does not keep the classes of labelled nodes, even with mu = 1 | `C103_keeps_labels_refuted` |
| C104 | negative edge weights are accepted; the degree is clamped to 1e-12 and entries explode | `C104_negative_weights_refuted` |
| C105 | sym normalisation is not an average: propagated values leave the range of the features | `C105_symmetric_range_refuted` |
| C106 | max_epochs = 0 raises UnboundLocalError in train_fullbatch | `C106_no_epochs_refuted` |
| C106 | a NaN validation loss at the first epoch is never replaced (comparison with NaN is false), so the first weights are returned | `C106_nan_refuted` |
| C106 | a train mask that selects no node is accepted; every step is on a loss over no rows | `C106_empty_training_refuted` |
| C106 | the number of classes counts hidden labels | `C106_hidden_class_refuted` |
| C107 | the layers are created before set_torch_seed, so the same seed gives different models depending on earlier use of the global generator (GCN, APPNP, ChebNet, GAT, GCNII, GraphSAGE, SGC) | `C107_seed_refuted` |
| C107 | the preparation cache is keyed by object identities; a mask replaced inside the masks dict is not seen by a refit | `C107_cache_refuted` |
| C107 | SGC predict_proba ignores the features it is given | `C107_sgc_features_refuted` |
| C108 | a special word that can occur in a (lower-cased) text is renumbered by fit: two words, and every unknown word, share an identifier | `C108_special_words_refuted` |
| C108 | pad_token equal to unk_token: identifiers reach the reported vocabulary size | `C108_same_special_refuted` |
| C109 | vocab_size of 2 or less: identifier 2 lies outside the vocabulary | `C109_small_vocabulary_refuted` |
| C110 | columns of the one-hot labels are positions among the classes present, not class numbers | `C110_column_number_refuted` |
| C110 | labels that are already one-hot are flattened into rows for each entry | `C110_already_onehot_refuted` |
| C111 | a column numeric on the fit rows with a word in another row makes transform raise ValueError | `C111_other_rows_refuted` |
| C111 | the word __missing__ and a missing value are encoded alike | `C111_missing_word_refuted` |
| C112 | two edges stored as rows (shape (2, 2)) are read as columns: sparsification invents an edge | `C112_two_rows_refuted` |
| C112 | sparsification drops the two directions of an undirected edge independently | `C112_undirected_refuted` |
| C113 | channels-first images of width 1 to 4 are taken for channels-last | `C113_narrow_refuted` |
| C113 | 1, 3 or 4 grey images are taken for one image with that many channels | `C113_grey_count_refuted` |
| C114 | asking for three channels drops one of four grey images | `C114_grey_count_refuted` |
| C115 | resize casts to uint8: images with values in [0, 1) become all 0, even when the size does not change | `C115_fractions_refuted` |
| C116 | normalising grey images with the default three means makes three channels | `C116_grey_refuted` |
| C117 | an empty batch of images raises ValueError; a store with features.X but without raw.X raises KeyError | `C117_empty_refuted` |
| C118 | fit falls back on raw.X, transform requires features.X: KeyError after a successful fit | `C118_raw_refuted` |
| C119 | images of another shape with as many cells come out with the shape of the fit images | `C119_shape_refuted` |
| C121 | nodes without edges share the empty neighbourhood and are merged two by two | `C121_unrelated_refuted` |
| C121 | symmetrizing takes the maximum of both directions: a negative one-way edge vanishes | `C121_negative_refuted` |
| C121 | predict_proba uses the levels of the fit and ignores the graph passed when the node count is the same | `C121_graph_ignored_refuted` |
| C122 | the number of classes is read from all labels, hidden ones included: a class that only hidden nodes have makes the fit fail | `C122_hidden_class_refuted` |
| C122 | a labelled node with a negative label is accepted; its row is all zero | `C122_labelled_row_refuted` |
| C123 | the transition matrix is said to be row-stochastic, but a node without outgoing edges loses a share 1 - alpha of its features at the first step | `C123_isolated_refuted`, `C123_sink` |
| C123 | parallel edges are added with scipy and overwrite each other without it, so the view depends on the installed packages | `C123_dense_refuted` |
| C125 | GraphBuilderSpec.from_dict({}) has k = None and binary weights, unlike GraphBuilderSpec(), and validate refuses it | `C125_builder_defaults_refuted` |
| C125 | a NaN sigma or radius passes validate, which says they must be > 0 | `C125_nan_refuted` |
| C125 | cosine weights are negative for points more than a right angle apart | `C125_negative_refuted` |
| C126 | if the labelled nodes show one class, the classes are taken from the labels of all nodes (or meta y_true): whether fit returns depends on hidden labels | `C126_leak_refuted` |
| C126 | with balance and all scores negative, the most clearly negative half of the nodes is guessed positive; a single unlabelled node is always guessed positive | `C126_balance_refuted` |
| C126 | with three classes of which the labelled nodes show 0 and 2 the method fits silently and the second column stands for class 2 | `C126_columns_refuted` |
| C126 | C_u_max = 0 does not switch the unlabelled nodes off: the first round uses the penalty 1/1000 whatever C_u_max is | `C126_cap_refuted` |
| C126 | a negative batch size is accepted and nothing is learned | `C126_batch_refuted` |
| C127 | a class registered under a built-in id before the first look-up makes every later listing and look-up of any method raise ValueError | `C127_override_refuted` |
| C127 | a status the user gives to a built-in method is reset by the next listing | `C127_status_refuted` |
| C127 | a path with two colons is accepted by the registration and refused by the look-up | `C127_colons_refuted` |
| C128 | a classifier registered under a shipped key before the first listing, with another description, locks the whole registry for the rest of the process | `C128_locked_refuted` |
| C129 | a class registered under a catalogue id silently replaces the shipped one or raises, depending on whether its module happens to be loaded | `C129_shadow_refuted` |
| C129 | after such a replacement the other augmentations of that module are listed but cannot be obtained; for some the first look-up raises and the second succeeds | `C129_broken_refuted` |
| C129 | a class can be registered under an id that is not the op_id it declares | `C129_name_refuted` |
| C132 | a negative batch_size is accepted: no batch is run and the fit returns the untrained weights | `C132_negative_batch_refuted` |
| C132 | torch is never seeded: initial weights and labelled batches depend on the state of the process, whatever the seed | `C132_torch_refuted` |
| C132 | a negative sample can be the context node it is contrasted with | `C132_negatives_refuted` |
| C133 | an edge list with exactly two edges, one per row, is read as one row of sources and one of targets, so other edges are used | `C133_two_edges_refuted` |
| C133 | edges with an endpoint outside the graph are dropped without an error | `C133_outside_refuted` |
| C134 | an invalid plan goes unnoticed when there is nothing to augment | `C134_unchecked_refuted` |
| C134 | the list fallback for results of different shapes is never returned: stacking always raises | `C134_ragged_refuted` |
| C134 | the element type of the first result is forced on all rows, so later values can be truncated | `C134_dtype_refuted` |
| C134 | weak and strong pipelines share the context, so equal plans give equal views | `C134_same_plan_refuted` |
| C134 | the second strong view of a seed is the first strong view of the next seed | `C134_next_seed_refuted` |
| C135 | the modality a plan names is never read | `C135_modality_refuted` |
| C136 | without symmetrize a node averages the nodes it points to, not those that point to it | `C136_direction_refuted` |
| C137 | a class that only hidden nodes have makes GraphHop fail | `C137_unseen_class_refuted` |
| C137 | a hidden label such as -100 is an IndexError, -1 is not | `C137_hidden_label_refuted` |
| C137 | early stopping compares with the previous epoch, so the weights kept are not the best ones | `C137_best_refuted` |
| C137 | a NaN validation loss counts as an improvement and hides a worse one after it | `C137_nan_refuted` |
| C137 | hop weights that do not sum to one are accepted | `C137_weights_refuted` |
| C138 | a class without labelled rows so far has the zero prototype, whose cosine 0 beats every negative one | `C138_unseen_refuted` |
| C138 | with use_ema and a forward_features without model argument the current features are used, without a message | `C138_ema_refuted` |
| C139 | with a small t_dist the powers fall below 1e-12 and no class keeps its share of the semantic pseudo-label | `C139_sharp_refuted` |
| C140 | distillation without fine-tuning and without a student bundle trains a model that is then dropped: the pretrained one predicts, or the method counts as not fitted | `C140_dropped_refuted` |
| C140 | a teacher with its own student stays frozen after fit: a second fit with these bundles always fails in fine-tuning | `C140_second_refuted` |
| C140 | functions in the metadata of a bundle that are not bound methods of its model are not moved to the copy: the model is then distilled from its current self | `C140_teacher_refuted` |
| C142 | with symmetrize, a link written twice in one direction counts twice, written once in each direction it counts once | `C142_mentions_refuted` |
| C142 | without symmetrize, information flows against the edges, unlike in the other graph networks of the package | `C142_direction_refuted` |
| C142 | K = 1 accepts a graph and ignores it; predict_proba ignores the graph it is given | `C142_single_power`, `C142_predict_graph` |
| C143 | an edge drop rate of 1 or more keeps every edge (a view never loses all of them), while a feature rate of 1 hides every column | `C143_all_edges_refuted` |
| C143 | pseudo-targets are cut below 1/10000 and not scaled up again, so they need not be distributions | `C143_target_sum_refuted` |
| C144 | a fit that raises inside the training loop leaves an untrained network behind, and predict_proba answers with it | `C144_failed_refuted` |
| C145 | the torch logistic regression sets its seed after it has built the network, so equal seeds give different models when the global generator differs | `C145_logreg_seed_refuted` |
| C145 | a refit that raises for a negative weight decay or an unknown activation has replaced the classes, and the old network answers with the new labels | `C145_failed_refuted` |
| C146 | the image network remembers the shape before it checks the data; after a refit that raises it refuses the data it was trained on | `C146_refit_refuted` |
| C146 | a refit on flat rows uses the shape of the earlier fit and ignores input_shape | `C146_stale_shape_refuted` |
| C147 | a path given as bytes is opened as the text of its literal (quotes and prefix included) | `C147_bytes_refuted` |
| C147 | mono=False averages the channels exactly as mono=True does | `C147_channels_refuted`, `C147_mono` |
| C147 | one waveform given as a one-dimensional array is refused, though a list holding it is taken | `C147_vector_refuted` |
| C148 | with device cuda or mps the torch adapter refuses every dataset: torch.device("cuda") differs from the cuda:0 of any tensor | `C148_accelerator_refuted`, `C148_accelerator_ex` |
| C148 | unlabeled images of another height and width pass the checks | `C148_trailing_refuted` |
| C148 | a dict without x: attribute error as labelled data, unchecked as unlabeled data | `C148_opaque_refuted` |
| C148 | a dict that also holds a number passes with device auto and raises AttributeError with device cpu | `C148_extra_refuted` |
| C148 | a meta that is no mapping passes the torch adapter | `C148_meta_refuted` |
| C149 | X is not in the key of cached views: another X on the same graph gets the views of the first | `C149_features_refuted` |
| C149 | without a fingerprint in meta, weights and edges after the thousandth are not in the key | `C149_edges_refuted`, `C149_weights_refuted` |
| C149 | a fingerprint that is None becomes the text None, shared by all such graphs | `C149_none_refuted` |
| C149 | a save killed between its removals leaves an entry that exists and never loads: every later cached call fails | `C149_stuck_refuted` |
| C149 | a save with overwrite=False killed before the manifest pairs the old manifest with the new views | `C149_mixed_refuted` |
| C150 | matrices of more than 2 * max_bytes rows that differ in a middle row have one fingerprint, and a cached build returns the graph of the other | `C150_middle_refuted` |
| C150 | a dataset fingerprint that is given is believed and X is not looked at | `C150_given_refuted` |
| C150 | the benchmark keys a graph by the dataset fingerprint, whether or not the test rows are in it: an experiment with test rows gets the cached graph of one without | `C150_bench_refuted` |
| C151 | run.seed goes through int(): 1.5 is read as 1, and null raises TypeError instead of a configuration error; other seeds are checked | `C151_seed_refuted` |
| C151 | true and false are accepted as seeds (and as limits and trial counts) | `C151_bool_refuted` |
| C151 | output_dir: null is not the default but a directory named None | `C151_output_refuted` |
| C152 | benchmark mode forbids backend auto only where it is written: an enabled graph without a backend is built with auto | `C152_graph_refuted` |
| C152 | metrics and report splits are checked only after the dataset has been loaded or downloaded | `C152_metric_refuted` |
| C153 | for arrays every classifier backend name but torch passes the check, auto among them, which may pick a torch classifier | `C153_auto_refuted` |
| C153 | unlabeled tensors in a dict without x, which the adapter accepts and the baseline does not use, make fit raise AttributeError where their rows are counted for the log | `C153_unlabeled_refuted` |
| C154 | rows of several dimensions build an mlp that cannot take them: the input width counts all values, the network does not flatten | `C154_mlp_rank_refuted` |
| C154 | images without channels, or flat with an input_shape, and waveforms without channels are accepted, but the networks never add the channel dimension | `C154_image_channels_refuted`, `C154_audio_channels_refuted` |
| C154 | text_cnn reads its channels from the last dimension by default and then convolves over it untransposed; flat features never pass | `C154_text_layout_refuted`, `C154_text_flat_refuted` |
| C154 | the vocabulary of lstm_scratch is guessed from the first row only, so a later row with a larger word is an IndexError | `C154_lstm_vocabulary` |
| C154 | graphsage_inductive is built from feature tensors, which its forward always refuses | `C154_sage_forward` |
| C155 | of one picture, a uint8 array is scaled to [0, 1] and a uint8 tensor is not | `C155_uint8_refuted` |
| C155 | bundles from a configured factory are made without the seed, so they depend on the state of the global generator | `C155_factory_refuted` |
| C155 | the number of outputs counts distinct labels: a class missing from the labelled rows leaves a label without an output | `C155_missing_class_refuted` |
| C155 | TriNet with image_cnn: heads are built, then every forward pass is refused, because the network answers with a pair | `C155_trinet_images_refuted` |
| C155 | TriNet with lstm_scratch: heads are built on logits but fed hidden states | `C155_trinet_words_refuted` |
| C156 | without a class filter, data with more rows than labels is accepted and cut (or passed on) silently | `C156_unaligned_refuted` |
| C157 | a selection that keeps no node, and every graph without features and labels, loses its edges and masks | `C157_nothing_kept_refuted` |
| C157 | masks with several columns (one per public split) are flattened: a node gets the entry of another node | `C157_mask_columns_refuted` |
| C157 | with several labels per node and a class filter a node is kept once per matching label | `C157_many_labels_refuted` |
| C157 | a negative max_nodes drops nodes from the end instead of keeping none (as the other providers do) | `C157_negative_limit_refuted` |
| C157 | an empty edge list of shape (2, 0) becomes no edge list at all | `C157_no_edges_refuted` |
| C158 | edge weights are stored and never used; batch_size and num_neighbors are never read (training is full-batch over all neighbours) | `C158_ignored_refuted` |
| C158 | a fit with a label of -1 or an edge outside the graph fails after its network was put in place: predictions then come from untrained weights | `C158_failed_fit_refuted` |
| C158 | labels with gaps: a label no node had can be predicted, because the classes are all the numbers up to the largest label | `C158_unseen_label_refuted` |
| C157 | edges with negative node numbers are accepted and count from the last node | `C157_negative_nodes_refuted` |
| C159 | target_column is part of the identity of an OpenML data set but is never passed to fetch_openml: the default target is what arrives, cached once per value | `C159_target_refuted` |
| C159 | `openml:adult,version=2`: the bare name is passed over and the whole reference is looked up as a name | `C159_bare_name_refuted` |
| C159 | `as_frame=False` in a reference turns data frames on (a text is true) | `C159_flag_refuted` |
| C160 | walker entries with a dot (GTZAN: blues.00001): with_suffix replaces what follows the dot, so take.1 and take.2 both become take.wav and take.1.wav is never found | `C160_dotted_refuted` |
| C160 | walker entries that are bare names, YESNO excepted: every label is the name of the data directory, one class for the whole data set | `C160_flat_refuted` |
| C160 | a relative cache directory and a walker whose entries begin with it (SPEECHCOMMANDS): the directory is put in front twice and no path exists | `C160_relative_refuted` |
| C161 | graph.dgi builds the encoder before torch.manual_seed: with the same seed, data and configuration the embeddings depend on what was drawn from the global torch generator before | `C161_seed_refuted` |
| C161 | graph.dgi reseeds the global torch generator and leaves it so: later draws no longer depend on its state before the step | `C161_global_refuted` |
| C162 | stub encoders hash the position with the sample: the same text or picture gets another embedding at another place of the data set, so train and test embeddings of equal samples differ | `C162_position_refuted` |
| C162 | stub encoders see only the first 1024 bytes of an array: pictures that begin alike (a blank border) get the same embedding | `C162_head_refuted` |
| C163 | embeddings.auto takes rows of numbers given as lists (or lists of tokens) for audio | `C163_rows_refuted` |
| C163 | embeddings.auto looks only at the first element: texts whose first one ends in .mp3 go to the audio encoder, another order or the test split goes to the text encoder | `C163_first_refuted` |
| C163 | embeddings.auto turns an empty list into a table with one column instead of the width of the embeddings | `C163_empty_refuted` |
| C163 | embeddings.auto flattens tensors of pictures instead of encoding them | `C163_tensor_refuted` |
| C164 | hf:owner/name (nearly every current Hugging Face data set) requests the data set owner with configuration name; no reference reaches owner/name | `C164_owner_refuted` |
| C164 | an empty config option is passed to load_dataset but left out of the canonical URI, which equals that of the request without one | `C164_empty_config_refuted` |
| C165 | a stack of 3 gray images (or of images of width 1, 3 or 4) is encoded as one image: the rows no longer match the samples; a stack of 4 fails | `C165_stack_refuted` |
| C165 | a channels-first image of width 1, 3 or 4 is transposed: its columns become channels | `C165_narrow_refuted` |
| C166 | `official_test_ignored` is false when the plan does not respect the official test set, although it is not used | `C166_ignored_refuted` |
| C167 | a modality written as a text is taken for its letters; the step is skipped on the data it is meant for, without an error | `C167_letters_refuted` |
| C167 | a step with `enabled` given as the text false stays on | `C167_switch_refuted` |
| C167 | the library reads a step without a name as the step None and passes over misspelled keys, both refused by the benchmark | `C167_library_refuted` |
| C168 | a view with a null name is accepted under the name None | `C168_null_name_refuted` |
| C168 | fractional columns are cut off instead of refused | `C168_fraction_refuted` |
| C169 | the numpy product gives the weights the dtype of the features: with integer features a weight of 1/2 becomes 0 and the message is lost without an error | `C169_integer_refuted` |
| C169 | an edge from node -1 is read as an edge from the last node by numpy and refused by torch | `C169_negative_refuted` |
| C169 | an unknown normalisation is accepted for a graph without edges | `C169_no_edges_refuted` |
| C170 | a second fit of the same classifier on flat rows uses the shape remembered from the first fit, not its `input_shape` | `C170_refit_refuted` |
| C170 | a fit refused after the network is loaded leaves an untrained network and new classes in place; predictions then answer instead of failing | `C170_failed_fit_refuted` |
| C171 | a fit that fails in training (token outside the vocabulary) leaves an untrained or partly trained network and the new classes in place | `C171_failed_fit_refuted` |
| C171 | `max_epochs` of zero or below is accepted: the untrained network counts as fitted | `C171_no_epochs_refuted` |
| C171 | labels that are not integers are cut towards zero, so different labels become one class | `C171_labels_refuted` |
| C171 | `kernel_size` of the audio classifier is accepted and ignored | `C171_kernel_refuted` |
| C172 | an IndexError raised while an item is read ends the data silently | `C172_silent_end_refuted` |
| C172 | a TypeError inside the test part of a class with `train=` is replaced by the error of `split=` | `C172_hidden_error_refuted` |
| C172 | classes that need `train` and `split` together, or splits by other names, cannot be loaded | `C172_both_keywords_refuted` |
| C173 | a fit refused after the first checks leaves its labels beside the head of the earlier fit: predictions answer labels never trained, or raise IndexError | `C173_failed_fit_refuted` |
| C173 | a TypeError inside the download leads to a second, unguarded call whose error passes as it is | `C173_load_refuted` |
| C174 | every error while the test split is loaded gives a data set without test split, silently | `C174_test_lost_refuted` |
| C174 | with `as_supervised` off, items of two features give feature names as samples and labels | `C174_keys_refuted` |
| C174 | `max_train_samples`, `max_test_samples`, `class_filter` and `seed` are ignored by the tfds provider | `C174_limits_refuted` |
| C174 | name/configuration is requested as a version of the name | `C174_config_refuted` |
| C175 | a TORCH_HOME set to nothing: another folder is reported, but the variable torch reads stays empty | `C175_empty_home_refuted` |
| C175 | the device kept for `auto` survives a change of what torch offers | `C175_stale_refuted` |
| C175 | an error of the cuda check reaches the caller, those of the mps checks count as no | `C175_cuda_error_refuted` |
| C176 | a manifest with version 2.5 is read as version 2, and any value is accepted as identity | `C176_unchecked_refuted` |
| C177 | `datasets download --dataset` returns 0 for a data set skipped for a missing extra, by default | `C177_skipped_refuted` |
| C177 | `--skip-cached` and `--modalities` are ignored with `--dataset`, `--dataset` with `--all` | `C177_options_refuted` |
| C177 | `datasets cache purge --fingerprint` reports success for every fingerprint | `C177_purge_refuted` |
| C178 | doctor advises `modssc[inductive-torch or inductive-tf]`, which pip cannot read | `C178_advice_refuted` |
| C178 | supervised without torch is advised the graph extra; parts of torch are unknown to the advice | `C178_module_first_refuted` |
| C178 | an outside module whose name begins with modssc, or an import error without a name, ends the start of all commands | `C178_outside_refuted` |

Read but not proved about: `HoldoutSplitSpec.shuffle` and `LabelingSpec.per_class` are never read by the
samplers; the dataset `raw_dir` name maps `a/b` and `a_b` to the same directory; `gc` and `purge` take no lock.

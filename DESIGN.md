# Formal model of coco-experiment: design

Source: `/repo` (C, `src/`), read as text only.  Model: Coq 8.16.1, `rocq/theories`, logical name `Verif`.

## Layout

Every area `X` has up to four kinds of files:

* `XModel.v`  - Gallina transcription of the C code, function by function, each definition with a
  comment citing file and lines; simplifications are named in the comment.
* `XSpec.v`   - the small specification, written without the model's helpers.
* `XProofs.v` - lemmas.
* `XProps.v`  - the final theorems (`exact lemma`), an `Example` with a concrete non-trivial case next to each
  theorem, and `Print Assumptions`.

Theorem names start with the property id (`C01_...`).  A theorem that shows that the code deviates from its
documentation ends in `_refuted` (a concrete witness, by computation) or, when the deviation is characterised
for all inputs, has a plain name and the deviation is spelled out in the property statement.  A partially proved
statement ends in `_partial`.

## Conventions of the model

* C strings: `list ascii` without the terminating 0 (`ascii` 0 never occurs inside; stated as a hypothesis where it
  matters).  Buffers with a size: accesses are checked and an out-of-range access is the distinct outcome `None`/`UB`.
* `size_t`: `N`/`nat` with explicit `mod 2^64` where wrap-around can matter, otherwise a stated "no overflow" hypothesis.
* `coco_error` terminates the process: outcome `Err`.  `coco_warning`/`coco_info`/`coco_debug` output is not modelled unless
  a property is about it.
* `malloc` never fails (failure is `coco_error`); fresh memory is indeterminate: reading it is a distinct outcome where
  a property is about it.
* `double`: three levels.  (1) where only the order of values matters: an abstract ordered value type or `Z`/`Q`;
  (2) exact real arithmetic `R` (statement says "exact arithmetic"); (3) IEEE binary64 through Flocq when rounding,
  infinities or NaN are the point.  Each property below says which one is used.
* libm (`pow`, `log10`, `sqrt`, `floor`...), `qsort`, `sscanf`, stdio and the file system are not verified: they are Section
  variables with the properties used stated as hypotheses, or exact mathematical functions (said in the comment).
* The linking of files through `#include` of `.c` files, `static`, printing formats and CLI are not modelled.  Of the bindings
  the Python classes named in the table are modelled (of the Rust, Java and MATLAB bindings only the object life times of C89, evaluation in C90, the gateway of C91 and the example experiments of C92), at the level of Python values: integers are unbounded, dictionaries
  keep the order of insertion, exceptions are a distinct outcome, the interpreter, Cython's conversions and NumPy are trusted.

## Properties

| id | model | method |
|----|-------|--------|
| C01 | `encode`/`decode` on `N` with 2^64 wrap | div/mod arithmetic |
| C02 | `decode` with its early return (indices stay at their initial 0) + `get_problem_from_indices` | case analysis |
| C03 | suite record (three lists of numbers with 0 = filtered, current indices -1 = unset), `get_next_problem` as a step function | lexicographic induction; spec = filter of the cartesian product |
| C04 | same step function iterated beyond NULL | corollary of the state reached at exhaustion |
| C05 | `filter_indices`, `filter_dimensions`, option order of `coco_suite` | induction on lists |
| C06 | getter transcribed with checked access | witness + characterisation |
| C07 | the three search loops | induction, spec = first position |
| C08 | option scanning by `strfind` positions and the `>0` tests | case analysis on positions |
| C09,C10 | `parse_ranges` as a whole with split, dash counting, `strtol` saturating at LONG_MAX, checked writes | induction over items; spec = denotation of items |
| C11 | `strfind` loop | induction; spec = least position with prefix |
| C12 | `trim` with pointers as positions in a buffer, checked accesses | spec = existence of blanks decomposition |
| C13 | `split` (strtok), `remove_from_string` (strstr, memmove) | spec = join/split laws |
| C14-C16 | `options_read*` (positions), `option_keys` pipeline, `read_values` with buffer size | spec = grammar of well formed strings |
| C17 | `join_path` with strncat bound; the 999-character limit of `strdupf` | induction over components |
| C18 | `create_directory`, `unique_directory` and `unique_filename` over an abstract file system whose other writers may act between steps (oracle per attempt) | induction over attempts |
| C19 | `remove_directory` over a tree file system with per-operation failure oracle | induction over trees |
| C20-C22 | problem objects: common fields plus a class (evaluate/constraint/recommend functions, private data), `coco_evaluate_function`, `coco_evaluate_constraint`, `coco_is_feasible`, `final_target_hit`, transformed and stacked problems; binary64 | invariant over the list of calls |
| C23 | log trigger in binary64; `log10` any function accurate to 2^-40 and monotone | invariant: stored exponent = min of levels; error bounds |
| C24 | linear trigger and rounding up in binary64 | monotonicity of the composed rounding; error bounds |
| C25 | first/second evaluation trigger in binary64; `pow` with base 10 any function accurate to 2^-51 and exact on representable powers; spec with exact powers (`m = floor(10^(k/20))` as largest m with m^20 <= 10^k) | induction over the run; certified table of 10^(j/20) |
| C26 | the observer of C58 and the loggers of C20-C25, C50 | the reads of all other keys agree, lock-step through the constructor |
| C27-C29, C54, C55 | `logger_bbob` in binary64 over any problem class that computes a function f and constraints g: evaluate, constraint, recommend, restart, free; files are lists of lines before formatting | invariant over the list of actions; consultations of the triggers as a fold |
| C30 | digit function in binary64 | case analysis |
| C31 | `mo_get_dominance` loop, values in `Z` | induction |
| C32-C34 | archive: tree abstracted to the ordered list (refined by C38), `add_solution`, `update`, `get_next_solution_text` | invariant: staircase; spec = filter of history, area by integration of a step function / measure of union of boxes |
| C35-C37 | `logger_biobj`: `tree_update`, `output`, `evaluate`, `feed_solution`, `finalize`, `free`; records have addresses and touching a freed one is `UB`; triggers are arbitrary functions; indicator values in `R` | invariant relating the trees to the history; files = functions of the history |
| C38 | all compiled functions of `mo_avl_tree.c` on a heap of nodes with their pointers, counts (64 bits, wrapping) and depths (8 bits); touching NULL or a freed node is `UB`, an endless loop is `UB`; malloc is an arbitrary function that returns unused addresses; comparison functions are arbitrary, orders for the histories and consistent with the sequence for single operations; failing malloc, userdata and custom allocators are left out | separation-style pieces of the tree in memory (cell, subtree, context), each loop iteration moves between them; list of nodes as a doubly linked chain; Fibonacci bound |
| C39 | both generators, integers in `N`/`Z` with `int`/`long` range checks, doubles in binary64; log and cos are parameters | invariant over the stream; history specification of the shuffle; order of 7^5 modulo the prime 2^31-1 |
| C40 | `compute_xopt`, `compute_fopt` in binary64 from the generator's outputs; log and cos are arbitrary functions that are finite and in range (`libm_ok`) | rounding bounds; case of an infinite quotient |
| C41 | character loop of the check; `vsprintf` with `%s %lu %0wlu` and the 999-character limit; id formats of all suites | induction; parsing back the numerals |
| C42 | a heap of problem and observer objects (freed cells are remembered); add, remove, free, evaluate, recommend, restart as functions on it that return `UB` when a freed object or closed file is touched; names built with the real `coco_vstrdupf` and `coco_remove_from_string`; file names and the contents of log files are left out | invariant of the heap over all permitted histories |
| C43 | table scan loop with the overwritten result | induction |
| C44 | triangular-number formula in binary64 (with wrap-around) + table of the branches; the same formula in `R` for every size | arithmetic, computation over the finite table |
| C56 | search for a second instance; the closeness test is an arbitrary function of dimension, functions and instances | induction over attempts |
| C57 | the same block rotation code over the real numbers (square root from the standard library) | modified Gram-Schmidt: orthonormal prefix and span invariant |
| C45 | permutation helpers with the one global pointer and its blocks of memory, qsort as a parameter (specification `qsort_ok`); block rotations with indeterminate elements, generic in the arithmetic; binary64 rotations; the self-test of a block rotation for fewer than 100 variables is not modelled | swap chain and window; block map as a list; segments |
| C46, C47, C60 | ConsModel.v over the abstract arithmetic of FunModel.v, instantiated with `R`: the linear constraints with their dead band, orientation, the loop that appends active and inactive ones, the disguise of the gradient, the nine objective functions with their gradients, the constructors of the suite, the search for the initial solution; random streams are functions of seed and call number; brentinv is a parameter (exact for C60, the computed one for C71); identifiers, counters, asserts left out | invariant of the loop (counts, multipliers, origin of gradients); supporting hyperplanes of the objectives (convexity, or integer shifts for Rastrigin); saddle point of the Lagrangian; intermediate values for the inverses |
| C48 | `transform_vars_discretize` in binary64 around an arbitrary inner class, the bounds and cardinalities of both mixed-integer suites; scaling of the objective, names and memory are left out | rounding-error bounds on the points; the largest double below 1/2 as a separate case; exactness by a common power of 2 of each of the 30 points and the optimum |
| C49 | all raw functions, transformations and constructors of the 24 functions (FunModel.v) over an abstract arithmetic, instantiated with `R`; random draws are inputs; coco_pi is pi; powers that are NaN in C are given the value 0 (the proofs never meet one); identifiers, counters, gradients left out | invariant "optimum at b with value v" kept by each transformation; row orthonormality for 9/19; for 20: 17 digits of pi by Machin, Taylor bounds of cos and an exact polynomial expansion around the maximum |
| C50 | evaluation functions of the toy and the real-world logger on top of the problem model of C20-C24 (a logger is a class around an arbitrary inner class); a line is the record of its values before formatting, times are only flagged; file names and opening of files are left out | invariant over the session |
| C58 | coco_observer and the constructors of the five observers; directories as in C18; strtod is a parameter that looks no further than white space; opening of the toy file is a parameter; messages are values | the value read for a key is a function of the entry with that key; name dispatch by cases |
| C59 | same model as C49; spec FunDocSpec.v: the published formulas on points as functions from indices to reals | each transformation is composition with a point map; raw functions by loop-to-sum lemmas |
| C61, C62 | LargeModel.v over the abstract arithmetic of FunModel.v, instantiated with `R`: block rotations with their row maps, permutations and their inverse, rounding with the number shared with the innermost problem, the generalised raw functions, the 24 constructors of the large-scale suite; locations, blocks, permutations, random numbers are inputs (their properties: C39, C40, C45, C57); identifiers, counters, the self-test in transform_vars_blockrotation.c:159-162 left out | block rotations equal a block-diagonal product; permutations and block rotations keep the optimum at 0; each transformation is composition with a point map; the formula of 7 as published is refuted at a concrete point |
| C63 | StackModel.v: stacked problems, ideal and nadir point, the closeness test, coco_get_biobj_problem, on top of FunModel.v (with `R`) and PairModel.v; the draws are an arbitrary function of dimension, function and instance | from C44, C49, C56, C59; a point above the nadir point is dominated by an optimum of one objective |
| C64, C65 | BoxModel.v: the box transformation with its assertion, the constructors of the boxed and of the toy suite; infinity and NAN are separate outcomes | from C49 and C59 |
| C66 | IndexModel.v: file names, headers, index (.info) and data texts of the bbob logger over a sequence of problems; the disk is a map from paths to texts; printf of doubles is a parameter | own words for sessions, paths and lines |
| C67 | FolderModel.v: file names, headers, index (_hyp.info) and data texts of the bi-objective logger over a sequence of problems; the rows are given (BiobjModel.v says which); same disk and printf as C66 | own words for sessions, paths, parts and tables |
| C68, C69 | MixFunModel.v: discretisation, scaling, the constructors of both mixed-integer suites on top of FunModel.v and LargeModel.v with `R`, including the penalties that read the overwritten region of interest; identifiers, names and the binary64 effects (C48) left out | the grid keeps the optimum on a value; placed points stay in [-4,4], so penalties vanish; then as C63 |
| C70 | NoisyFunModel.v: the noisy suite on top of FunModel.v with `R`: inner functions, parameters of the three noise transformations, penalty; the samples of one evaluation are arbitrary numbers (seeds and samplers: C53), `fopt` is an arbitrary draw | the inner functions are those of C49/C59 with other parameters; noise as closed formulas |
| C71 | BrentModel.v over the abstract arithmetic, instantiated with `R`: brentq and brentinv of brentq.c with all branches, the flag of the result record, the two univariate maps; the while loops of brentinv take fuel (`C71_terminates` gives it); the counters of calls and iterations are left out. `computed_inverses` says that the inverses of ConsModel.v are what brentinv returns (`C71_computed`: such inverses exist) | invariant of the bracket (signs of fcur, fblk, previous step); growth of the oscillation and the asymmetric map |
| C72 | OldModel.v: evaluation, writing of a line, constructor and freeing of logger_bbob_old.c, on the problems of ProbModel.v with the triggers of TrigModel.v and the lines of BbobModel.v; info files and the static variables that say when a new file is started are left out (C73); asserts are undefined behaviour | forgetting the additional fields of the bbob logger with infinite linear precision commutes with every action; then the invariant of the bbob logger |
| C73 | OldIndexModel.v: names, headers, index files and the five static variables of logger_bbob_old.c, over the disk and the runs of IndexModel.v; the lines of a data file are written at the end of its problem; creating the folder succeeds | equation of one problem in terms of a decision (new line, instance, slots) and a list of writes; snoc induction with the slots as the dimensions seen so far; for memory: all slots but one are distinct dimensions and then zeros |
| C74 | MemModel.v, MemSuiteModel.v: allocation, duplication, wrapping, stacking, observing and freeing of problems (coco_problem.c, coco_observer.c), the layout and free function of every transformation and raw function, and the constructors of all suites as lists of statements, over a heap of blocks that are never reused; numbers, temporaries of an evaluation and failing malloc left out; a logger is a structure with any number k of blocks; the printing of NULL is a parameter | ownership predicate `own` (which blocks a problem holds, by its free function) and the counting invariant `spans` (live blocks since the start = blocks held + blocks lost, each once); a static analysis of the statement lists, proved sound, settles all functions; session invariant over a list of problems; no axioms |
| C75, C76 | PyExpModel.v: `BatchScheduler` and `ExperimentRepeater` of cocoex/utilities.py as records with functions for their methods (dictionaries as lists in order of insertion, the multiplier an exact rational, messages left out), and the loop of example_experiment_complete.py with the solver as an arbitrary function of the trials so far; exceptions as `None` | the scheduler's state after the first problem of any sweep is the same; the repeater's data are a function of the list of trials (`build`), so every method is characterised on the trials; loop invariants on the list; per-key projection commutes with a sweep, and finished keys are fixed points, hence equal data with and without batches; no axioms |
| C77 | PyAnyModel.v: `ProblemNonAnytime` of cocoex/utilities.py: the evaluations of the observed and the unobserved problem as lists, exceptions as `None`; objective function, best value and `!=` are arbitrary functions (the noisy suite excluded) | invariant: the counter is at most the number of observed evaluations, and the observed problem is current only if they are equal; no axioms |
| C78, C79, C80 | PySuiteModel.v: the classes `Suite` and `Problem` of interface.pyx over SuiteModel.v and IdModel.v: attributes as a record, problem objects as a list with a flag for the NULL pointer, the list of objects passed to coco_problem_free; exceptions and the end of the process are outcomes; observers, names, numbers of objectives and messages left out; problem numbers are below 2^64, proved from the parser (PyFitsProofs.v) | invariant over all operations (indices and ids are those of `all_problems`, the freed list is duplicate-free and equals the closed objects, the current object exists); the loop by induction on the rounds; first matches by the lexicographic order of the combinations; no axioms |
| C81 | PyOptModel.v: repr and str of CPython for strings (code points below 256), integers and dictionaries, str.replace, `Observer.__cinit__` and `ObserverOptions` over ObsModel.v; other values are given by their repr | the removal of "u'" distributes over pieces that do not split the pair, so the text is one entry per item; then C58; axioms of the reals through the model of doubles in ObsModel.v |
| C82 | PyArgModel.v: `args_to_dict` with `str.split` and `str.startswith`; Python values, their comparison, `ast.literal_eval` and `int` are parameters; printing left out | induction over the arguments with the dictionary built so far; abbreviations through the number of known names that pass the test; no axioms |
| C83 | PyPropModel.v: `Problem.initial_solution_proposal` and its call counter in binary64; the random numbers drawn are parameters; bounds and initial solution are those the problem object holds | monotonicity of rounding: bounds are representable, so rounding cannot cross them; error bound of two additions; axioms of the reals |
| C84 | PyBareModel.v: `BareProblem` (bare_problem.pyx) over ProbModel.v and IdModel.v; the allocation of the 24 functions is a parameter; the matrix is one piece of memory, so that rows of the wrong length are modelled as in C; the life time of the string behind suite_name and deallocation are left out | induction over the rows with the memory position; no axioms except those of the doubles |
| C85 | PySearchModel.v: `solvers.random_search`; random numbers are an infinite sequence of rows, the problem is a function of the decision vector and the former calls; the chunk size is computed exactly | invariants of the loop over the chunks; argmin by induction with the prefix; rounding as in C83; axioms of the reals |
| C86, C87 | PyInfoModel.v: `SameFunction` and `ShortInfo` of utilities.py; ids are those of IdModel.v; times are left out of the texts, a report is a list of pieces | numerals of equal width and value are equal, so ids agree without the instance exactly for equal function and dimension; invariants with the former problems, latest first; no axioms |
| C88 | LoopModel.v over HeapModel.v (C42): current_problem of a suite, coco_suite_get_next_problem, coco_suite_free, the loops of the C example, of Benchmark.java and of suite.rs; which problem comes next is an argument (SuiteModel.v), the arrays of the suite are left out | the heap has one of two explicit shapes between the calls; no axioms |
| C89 | RustModel.v over HeapModel.v and LoopModel.v: variables owning problems and observers in Rust; the compiler is modelled as rejecting the use of a variable after it was dropped; the borrow of the suite is ignored (more programs are covered); slices and options are left out | invariant: every variable holds an outermost problem or an observer of its own, loggers have what they need, everything belongs to a variable; one lemma for all changes that only remove objects; no axioms |
| C90 | BindModel.v over ProbModel.v: the calls that evaluate in cocoCall.c, problem.rs and CocoJNI.c with their checks; handles are resolved, complex parts ignored; a block written beyond its end is UB | one proof for the three bindings, by simulation with sequences of calls of C; axioms of the reals (through the doubles) |
| C91 | MexModel.v: gateway function of cocoCall.c, handles and int32 results as bytes (little endian, size of size_t is a parameter) | induction on the number of bytes; case conversion is injective up to case; no axioms |
| C92 | DemoModel.v over ProbModel.v: the loop of runs on one problem in the four example experiments and their random searches; an algorithm is any function from run, budget and state of the problem to calls; 64-bit wrap in C; Java's long and MATLAB's int32 are not bounded | induction on the runs left; counts from C20; the refutations by execution in the model and by the wrap of 2^64; axioms of the reals (through the doubles) |
| C93 | GridModel.v: the grid search of the C example: sizes of the grid, moving from node to node, end of the loop; coordinates over Q; exact arithmetic, longs not bounded | the place of a node in mixed radix increases by one; no axioms |
| C94 | TimingModel.v over SuiteModel.v: the loop over the suite in the C example with the account of evaluations per dimension; time itself is not modelled, a line is its dimension and divisor | groups of problems of one dimension, C01 and C03; no axioms |
| C95 | MsgModel.v over the vsprintf of IdModel.v: messages and log levels in the C and the MATLAB runtime; writing always succeeds | induction on the events from the end; both runtimes step by step; no axioms |
| C96 | ReportModel.v over SuiteModel.v: what coco_suite_get_next_problem writes; the time stamp and the layout within the tokens are not modelled | state of the iteration along the remaining combinations; no axioms |
| C97 | SuiteModel.v: names, dimensions, numbers of functions and years of all suites, against a table in CatalogSpec.v | scanning of the year; case analysis on the table; no axioms |
| C98 | MiniModel.v: `MiniPrint` of utilities.py; what is printed is a list of tokens with their texts, the local time is given with each call | the state is that of the list of earlier calls; induction on the calls; no axioms |
| C99 | TimeModel.v: `ascetime` of utilities.py for numbers that are not negative, with decimals=0, on doubles; `x % 1` as x - floor(x) | the subtraction is exact (Sterbenz), sixty times the largest double below one is below sixty, error bounds of the roundings; axioms of the real numbers |
| C51 | NormModel.v: mo_normalize, mo_get_dominance, mo_is_within_ROI and the comparison of the archives on binary64 (Flocq); warnings left out, a failed assert is UB | rounded multiples of 5e-13 are equal or more than 1e-13 apart (relative error below 1024, spacing of doubles above 512); monotone operations with infinities; error bound of the chain of eight roundings; link with the integers of MoModel.v |
| C52 | `double_to_int` in binary64 with truncation towards zero | case analysis |
| C53 | the three noise transformations in binary64 around an arbitrary inner class, the penalty, the two global seeds (`long`), processes that evaluate several noisy problems and reset the seeds; exp, pow, log, cos are arbitrary functions (for the lower bound on noisy values: in range, `sane_libm`) | rounding-error bounds; invariant over the list of events |

Notes on the multi-objective part (C31-C37): normalised objective values are integers counting units of 5e-14
(`mo_precision` = 2, `mo_discretization` = 10 units), the input being the rounded quotient of `mo_normalize`; hypervolumes are
integers in units of 25e-28.  So arithmetic is exact; binary64 effects are the subject of C51.  NaN objective values are
excluded by this.  The AVL trees are ordered sequences here; C38 treats the trees.  Files are lists of (evaluation number, value)
or (evaluation number, printed data).

Notes on the file system (C18, C19): other processes and failing system calls are arbitrary oracles; directory trees may contain
symbolic links.

Notes on binary64 (`DblModel.v`): a double is Flocq's `binary_float 53 1024` with a single NaN, so the sign and payload of a NaN
are not modelled; rounding is to nearest even; a decimal literal is the quotient of two exactly representable integers; a
conversion to an integer type that does not fit is `UB`; a failed `assert` is `UB` as well.  `log10` and `pow` are Section variables
(arguments of the theorems) with the stated accuracy, and the correctly rounded functions are shown to satisfy the assumptions.

Nothing on the list is thought to be inexpressible; what stays outside is listed under "Not modelled".

## Trusted base

* Coq's kernel (8.16.1).
* Axioms: per theorem as listed by `Print Assumptions` in the `*Props.v` files.  Discrete areas: closed under the global
  context.  Areas using `R`: the standard library's real-number axioms (`ClassicalDedekindReals.sig_forall_dec`,
  `ClassicalDedekindReals.sig_not_dec`, `FunctionalExtensionality.functional_extensionality_dep`) and possibly `Classical_Prop.classic`
  (used by Flocq/Coquelicot lemmas).
* The hand transcription of the C code into Gallina, as documented by the comments.

## Not modelled

Creation of directories, links, other processes writing in the result folder;
Output formatting of numbers, memory allocation failure, the MATLAB runtime, Windows branches, language bindings other than the parts named in the table, time stamps.

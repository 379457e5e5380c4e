{"id": "C01", "title": "Problem index encoding is a bijection", "statement": "For a suite with nF functions, nD dimensions and nI instances, encoding (function index, dimension index, instance index) gives a number below nF*nD*nI, decoding it returns the same triple, distinct triples get distinct numbers, and every number below nF*nD*nI decodes to an in-range triple that encodes back to it.", "quantifier": "all suite sizes nF,nD,nI>=1 (no bound) whose product fits size_t, all in-range triples and all indices", "why_tests_cant": "The set of suite sizes and indices is unbounded; a test samples a few.", "anchors": ["src/coco_suite.c:coco_suite_encode_problem_index", "src/coco_suite.c:coco_suite_decode_problem_index", "src/coco_suite.c:coco_suite_get_number_of_problems"]}
{"id": "C02", "title": "Fetching a problem by index", "statement": "coco_suite_get_problem(suite, i) with i below the number of problems returns the problem at the decoded coordinates (NULL exactly when that combination was filtered out); with any i at or above the number of problems it does not return NULL but issues a warning and yields the very first combination of the suite (deviation: callers cannot detect the error from the result).", "quantifier": "all suites with at least one problem and all indices, including out of range", "why_tests_cant": "Holds for every index beyond the end, an infinite set; requires all filter patterns.", "anchors": ["src/coco_suite.c:coco_suite_get_problem", "src/coco_suite.c:coco_suite_decode_problem_index", "src/coco_suite.c:coco_suite_get_problem_from_indices"]}
{"id": "C03", "title": "Iteration is complete and duplicate free", "statement": "Calling coco_suite_get_next_problem repeatedly on a fresh suite returns every combination that is not filtered out exactly once, ordered by dimension, then function, then instance, each as the problem of that combination, and then returns NULL.", "quantifier": "all suites (any numbers of functions, dimensions, instances, any filter pattern that leaves something) and the complete call sequence", "why_tests_cant": "Completeness over every filter pattern and length of run cannot be enumerated.", "anchors": ["src/coco_suite.c:coco_suite_get_next_problem", "src/coco_suite.c:coco_suite_is_next_instance_found", "src/coco_suite.c:coco_suite_is_next_function_found", "src/coco_suite.c:coco_suite_is_next_dimension_found", "src/coco_suite.c:coco_suite_is_next_item_found"]}
{"id": "C04", "title": "A second iteration pass does not repeat the first", "statement": "After coco_suite_get_next_problem has returned NULL at the end of a pass, the following calls enumerate all unfiltered combinations except the first one and then return NULL again (so a second pass silently skips the first problem, and a suite with one problem returns NULL forever).", "quantifier": "all suites and any number of further passes", "why_tests_cant": "It is a statement about every history of calls of unbounded length.", "anchors": ["src/coco_suite.c:coco_suite_get_next_problem"]}
{"id": "C05", "title": "Suite options select exactly the intended items", "statement": "With function_indices and instance_indices options the functions/instances left are exactly those whose 1-based position occurs in the parsed list; with dimension_indices likewise; with dimensions exactly those dimensions whose value occurs in the parsed list. Items never change order or value; only unselected ones are dropped. If an option's list cannot be parsed, no filtering by that option takes place.", "quantifier": "all suites and all option values", "why_tests_cant": "All lists of positions/values and all suites: unbounded input space.", "anchors": ["src/coco_suite.c:coco_suite_filter_indices", "src/coco_suite.c:coco_suite_filter_dimensions", "src/coco_suite.c:coco_suite"]}
{"id": "C06", "title": "Instance number getter", "statement": "coco_suite_get_instance_from_instance_index(suite, k) is documented to return the k-th instance number; it returns the k-th entry of the function list instead, so it is right only where the two lists agree and reads outside the list when k is at least the number of functions (deviation).", "quantifier": "all suites and all instance positions", "why_tests_cant": "An out-of-bounds read for some suites only; the correct answer coincides by luck on the first five instances of common suites.", "anchors": ["src/coco_suite.c:coco_suite_get_instance_from_instance_index"]}
{"id": "C07", "title": "Fetching a problem by function, dimension and instance number", "statement": "coco_suite_get_problem_by_function_dimension_instance returns the problem at the first positions holding the given numbers, succeeds exactly when each number is present among unfiltered items, and otherwise returns NULL.", "quantifier": "all suites, all triples of numbers, including numbers that occur repeatedly (instances) or were filtered out", "why_tests_cant": "All suites and triples.", "anchors": ["src/coco_suite.c:coco_suite_get_problem_by_function_dimension_instance"]}
{"id": "C08", "title": "Precedence between conflicting suite options", "statement": "When both 'year' and 'instances' are given, or both 'dimensions' and 'dimension_indices', the one that appears first in the string is documented to win. This holds exactly when neither key starts at the very beginning of the string; otherwise both are processed (later processing overrides or both filters apply).", "quantifier": "all option strings", "why_tests_cant": "All positions and orders of keys in arbitrary strings.", "anchors": ["src/coco_suite.c:coco_suite_get_instance_indices", "src/coco_suite.c:coco_suite"]}
{"id": "C09", "title": "Range strings denote the list they describe", "statement": "A string made of comma separated items n, n-m, n-, -m, - parses to the concatenation of the intervals the items denote after clamping to the allowed bounds, items being read left to right and reading stops at the first item that is malformed or empty; with no number read the result is NULL.", "quantifier": "all strings, all bounds min,max and all capacity limits", "why_tests_cant": "Infinitely many strings; boundary mistakes appear only at combinations of open ranges and bounds.", "anchors": ["src/coco_string.c:coco_string_parse_ranges"]}
{"id": "C10", "title": "Parsed range lists are bounded and within limits", "statement": "Every number returned by the range parser lies within the given bounds, at most max_count numbers are returned, the list ends with a 0 written inside the allocated array, and no read or write of the result or of the per-item number array falls outside its storage. Deviation: a list of exactly max_count numbers is returned by the parser but counting it terminates the program.", "quantifier": "all strings, all bounds and capacities >= 1", "why_tests_cant": "Memory safety and bounds for every string.", "anchors": ["src/coco_string.c:coco_string_parse_ranges", "src/coco_utilities.c:coco_count_numbers"]}
{"id": "C11", "title": "Substring search returns the first occurrence", "statement": "coco_strfind(base, seq) returns the smallest position at which seq occurs in base, or -1 if it occurs nowhere (seq non-empty); for an empty seq it returns the length of base; positions beyond 1e9 terminate the program.", "quantifier": "all strings", "why_tests_cant": "All pairs of strings.", "anchors": ["src/coco_string.c:coco_strfind"]}
{"id": "C12", "title": "Trimming removes exactly the surrounding white space", "statement": "coco_string_trim returns the unique string without leading/trailing white space from which the input is obtained by adding white space at both ends; a blank string becomes empty; every access stays inside the string. Deviation: if the first non-blank byte is 128 or more the behaviour is undefined (character class test outside its domain).", "quantifier": "all strings", "why_tests_cant": "All strings.", "anchors": ["src/coco_string.c:coco_string_trim"]}
{"id": "C13", "title": "Splitting and cutting strings", "statement": "coco_string_split returns the maximal delimiter-free non-empty pieces in order; coco_remove_from_string deletes exactly the characters between the first occurrences of its markers and leaves the rest.", "quantifier": "all strings and delimiters/markers", "why_tests_cant": "All strings.", "anchors": ["src/coco_string.c:coco_string_split", "src/coco_string.c:coco_remove_from_string"]}
{"id": "C14", "title": "Option values are read from the first textual occurrence of the name", "statement": "Reading an option returns the text after the first colon that follows the first textual occurrence of its name, wherever it occurs. For strings in which no name occurs inside another name or value this is the value given by the user; otherwise an option can be taken from inside another option's value (deviation).", "quantifier": "all option strings and names", "why_tests_cant": "All option strings.", "anchors": ["src/coco_utilities.c:coco_options_read", "src/coco_utilities.c:coco_options_read_string", "src/coco_utilities.c:coco_options_read_values"]}
{"id": "C15", "title": "Unknown option keys are reported", "statement": "For well formed option strings 'key: value key: value ...' of fewer than 220 characters with unquoted non-empty values, the extracted keys are exactly the keys written, and the keys reported as ignored are exactly those that are not in the list of known keys. Deviations: 220 or more unquoted characters terminate the program, a percent sign is undefined behaviour, and a last key without a value is not seen.", "quantifier": "all well formed option strings and known-key lists", "why_tests_cant": "All option strings.", "anchors": ["src/coco_utilities.c:coco_option_keys", "src/coco_utilities.c:coco_option_keys_get_redundant"]}
{"id": "C16", "title": "Option values never overflow the receiving buffer", "statement": "Copying an option's value list into its fixed-size buffer stays inside the buffer exactly when the number of non-blank characters up to the next letter is smaller than the buffer size; no check enforces this, so longer values overflow (deviation), and so does the text of the warning about long unknown keys.", "quantifier": "all option strings", "why_tests_cant": "Depends on unbounded input length.", "anchors": ["src/coco_utilities.c:coco_options_read_values", "src/coco_suite.c:coco_suite"]}
{"id": "C17", "title": "Path joining", "statement": "Joining path components never writes beyond the given buffer; the result is the components joined by the separator whenever the total length fits; a single overlong component is an error; several components that individually fit but jointly do not are silently truncated instead of reported (deviation).", "quantifier": "all base paths, component lists and buffer sizes", "why_tests_cant": "All lengths.", "anchors": ["src/coco_utilities.c:coco_join_path"]}
{"id": "C18", "title": "Result folders and data files never overwrite existing ones", "statement": "The result folder chosen for an experiment did not exist right before it was created (the name itself or with the smallest numeric suffix from 0001 to 9998 found free), existing entries are never changed, and a free candidate is always found when no system call is refused and the name has at most 436 characters. Unique data file names are not existing files at the time of the check. Deviations: the documented suffix 9999 is never tried; for longer existing names the call ends in an error or overflows a static buffer.", "quantifier": "all file system states and names, including concurrently created directories between attempts", "why_tests_cant": "All file system states / schedules.", "anchors": ["src/coco_utilities.c:coco_create_unique_directory", "src/coco_utilities.c:coco_create_unique_filename", "src/coco_utilities.c:coco_mkdir"]}
{"id": "C19", "title": "Removing a directory", "statement": "Without symbolic links below the path and with path texts of at most 441 characters, for every pattern of failing system calls coco_remove_directory ends, changes nothing outside the subtree, result 0 means that the whole subtree is gone, and a non-zero result means that a system call failed; a path that is no directory gives 0 and changes nothing. Deviations: a symbolic link to a directory has its target's contents deleted outside the subtree; longer path texts overflow a static buffer.", "quantifier": "all directory trees and failure patterns", "why_tests_cant": "All trees and failure points.", "anchors": ["src/coco_utilities.c:coco_remove_directory"]}
{"id": "C20", "title": "Evaluation counting", "statement": "The number of evaluations reported for a problem equals the number of evaluate calls whose argument contains neither NaN nor infinite entries; a call with an infinite entry returns +inf for every objective, one with NaN returns NaN for every objective, and neither changes any counter or the best observed value.", "quantifier": "all sequences of evaluate calls with arbitrary arguments", "why_tests_cant": "All histories and inputs.", "anchors": ["src/coco_problem.c:coco_evaluate_function", "src/coco_problem.c:coco_evaluate_constraint"]}
{"id": "C21", "title": "Best observed value", "statement": "After any sequence of evaluations the best observed value is the minimum of the first objective over all counted feasible evaluations (or DBL_MAX if none is below it), the recorded evaluation number is that of the first evaluation attaining it, and it never increases. An evaluation is feasible if no constraint value is positive. Deviation: a constraint value that is NaN counts as satisfied.", "quantifier": "all sequences of evaluations", "why_tests_cant": "All histories.", "anchors": ["src/coco_problem.c:coco_evaluate_function", "src/coco_problem.c:coco_problem_get_best_observed_fvalue1"]}
{"id": "C22", "title": "Final target", "statement": "coco_problem_final_target_hit is monotone (once true stays true); it is never true for multi-objective or unevaluated problems; and for a problem with finite best value whose target, the best value plus the final target precision rounded to a double, is below DBL_MAX it is true exactly when a counted feasible evaluation reached the target. Deviation: with an infinite best value any evaluation, even one returning NaN, makes it true.", "quantifier": "all histories", "why_tests_cant": "All histories.", "anchors": ["src/coco_problem.c:coco_problem_final_target_hit"]}
{"id": "C23", "title": "Logarithmic target triggers", "statement": "Processing any sequence of finite values, the logarithmic target trigger never fails and fires exactly when the value's level is strictly below the levels of all earlier values. The level is monotone in the value; for values of at least the precision it is the smallest k with value <= 10^(k/n), up to a relative error 10^(2^-39); positive values below the precision share the precision's level; zero is strictly below all positive values, negative values strictly below zero with levels given by the distance from zero in the same way.", "quantifier": "all sequences of finite doubles, all numbers of targets n in 2..10^6, all precisions of at least 2^-1000, every log10 that is accurate to 2^-40 and monotone (binary64)", "why_tests_cant": "All histories of values.", "anchors": ["src/coco_observer.c:coco_observer_log_targets_trigger"]}
{"id": "C24", "title": "Linear target triggers", "statement": "Processing any sequence of doubles (including infinities and NaN), the linear trigger fires exactly when the value rounded up to the grid is below DBL_MAX and below all earlier rounded values (a NaN never fires), hence only on strict improvements. Rounding up is monotone, yields a multiple of the precision, never more than 1e-12 below the value and at most one grid step above it, up to a relative rounding error of 2^-51. Deviation: precisions of at most 1e-12 are accepted by the observer but every consultation then fails an assertion.", "quantifier": "all sequences of doubles and all precisions above 1e-12 (binary64)", "why_tests_cant": "All histories of values.", "anchors": ["src/coco_observer.c:coco_observer_lin_targets_trigger", "src/coco_utilities.c:coco_double_round_up_with_precision"]}
{"id": "C25", "title": "Evaluation-number triggers", "statement": "When the observer is consulted at every evaluation 1,2,3,..., logging by evaluation number happens exactly at the numbers floor(10^(k/20)), k>=0, and at base*dimension*10^e for every base number and e>=0 when the base numbers are strictly increasing and within a decade. Deviation: when numbers are skipped (constraint evaluations count too), undocumented numbers trigger at every consultation until the trigger has caught up.", "quantifier": "all run lengths below 10^11, all dimensions, all range strings for the base numbers; every pow accurate to 2^-51 and exact on representable powers of ten (binary64)", "why_tests_cant": "All run lengths; irregular sequences.", "anchors": ["src/coco_observer.c:coco_observer_evaluations_trigger_first", "src/coco_observer.c:coco_observer_evaluations_trigger_second"]}
{"id": "C26", "title": "number_evaluation_triggers option has no effect", "statement": "The option number_evaluation_triggers is documented to set the number of logged evaluations per decade. Deviation: two observers whose options differ in the value of this option only have the same folder and settings and their loggers write the same data for every sequence of calls; with 4, evaluation 11 in dimension 40 is logged although it is none of the numbers documented for 4.", "quantifier": "all pairs of option values, all other options, all problems and call sequences", "why_tests_cant": "Equality of behaviours over all runs.", "anchors": ["src/coco_observer.c:coco_observer", "src/coco_observer.c:coco_observer_evaluations", "src/logger_bbob.c:logger_bbob"]}
{"id": "C27", "title": "bbob logger: final state is always on file", "statement": "After an observed problem with at least one counted evaluation is freed, the .dat and .tdat files both start with the first evaluation, their last lines carry the total number of evaluations and the final best difference to the optimum, evaluation numbers strictly increase within each file and best differences never increase; every line gives the data of its evaluation, or of the best solution if it was added when freeing. Without constraint evaluations the .tdat file has exactly the documented evaluation numbers and the last one. Deviation: freeing an observed problem that was only given recommendations reads uninitialised counters.", "quantifier": "all sequences of evaluate / recommend / restart calls ending with closing the problem", "why_tests_cant": "All histories.", "anchors": ["src/logger_bbob.c:logger_bbob_evaluate", "src/logger_bbob.c:logger_bbob_free"]}
{"id": "C28", "title": "bbob logger: targets are logged when first reached", "statement": "A .dat line is written at the first evaluation and at every later evaluation that improves the best value and reaches a target level not reached by an earlier improving evaluation other than the first one; the level of the first evaluation is not recorded, so an improvement within that level is logged again (deviation from 'new target').", "quantifier": "all sequences of evaluations", "why_tests_cant": "All histories.", "anchors": ["src/logger_bbob.c:logger_bbob_evaluate"]}
{"id": "C29", "title": "bbob logger: restarts", "statement": "Each group of consecutive restart signals that follows at least one evaluation produces exactly one .rdat line, written at the next evaluation; restart signals before the first evaluation or after the last one produce none.", "quantifier": "all interleavings of evaluate and restart calls", "why_tests_cant": "All histories.", "anchors": ["src/logger_bbob.c:logger_bbob_signal_restart", "src/logger_bbob.c:logger_bbob_evaluate"]}
{"id": "C30", "title": "Constraint digit", "statement": "The digit logged for a constraint value is 0 exactly for satisfied constraints (value <= 0), is monotone in the violation, is the documented decade digit (1 for ]0,1e-7], ..., 8 for ]1e-1,1], 9 above 1), and is 9 for NaN.", "quantifier": "all constraint values (finite, infinite)", "why_tests_cant": "All doubles.", "anchors": ["src/logger_bbob.c:logger_bbob_single_digit_constraint"]}
{"id": "C31", "title": "Pareto dominance", "statement": "The dominance comparison of two objective vectors answers 1 exactly when the first is better by at least the precision (1e-13) in some objective and the second in none, -1 for the converse, 0 when each is better somewhere, and -2 when all objectives differ by less than the precision; swapping the arguments exchanges 1 and -1 and keeps 0 and -2. For vectors whose values are equal or at least the precision apart (rounded normalised vectors) it is exactly Pareto dominance, says 'identical' only for equal vectors and is transitive. Deviation: for other vectors 'identical' is not transitive and dominance of three objectives can be cyclic.", "quantifier": "all pairs/triples of objective vectors of any number of objectives", "why_tests_cant": "All vectors.", "anchors": ["src/mo_utilities.c:mo_get_dominance"]}
{"id": "C32", "title": "The archive is the Pareto front", "statement": "After adding any sequence of solutions the archive contains exactly the solutions that are not weakly dominated by an earlier added one and not dominated by a later added one (in normalised objective space), each once, sorted by the second objective, with extreme solutions always kept; add reports 1 exactly when the solution was accepted.", "quantifier": "all sequences of added solutions", "why_tests_cant": "All histories.", "anchors": ["src/coco_archive.c:coco_archive_add_solution", "src/coco_archive.c:coco_archive_update"]}
{"id": "C33", "title": "The archive's hypervolume is the dominated area", "statement": "The hypervolume reported by the archive is the area of the region of the unit square (ideal to nadir point) dominated by all solutions ever added (equivalently by the archived ones); it does not depend on the order in which solutions were added and never decreases when solutions are added.", "quantifier": "all sequences of added solutions, exact arithmetic", "why_tests_cant": "All histories.", "anchors": ["src/coco_archive.c:coco_archive_update", "src/coco_archive.c:coco_archive_get_hypervolume"]}
{"id": "C34", "title": "Reading back the archive", "statement": "Repeatedly asking for the next solution text returns the two extreme solutions, then every other archived solution exactly once by increasing second objective, then the empty string; an accepted addition restarts the enumeration, a rejected one and the queries for number and hypervolume do not disturb it. Deviation: after the end the enumeration does not start anew, the empty string is returned until a solution is accepted.", "quantifier": "all archives and interleavings of additions and reads", "why_tests_cant": "All histories.", "anchors": ["src/coco_archive.c:coco_archive_get_next_solution_text"]}
{"id": "C35", "title": "Bi-objective indicator is the exact hypervolume", "statement": "When a problem observed by the bi-objective observer is evaluated (or solutions are fed to a reading logger) and finally freed, every line of the indicator's .dat, .tdat and .rdat files carries, for its evaluation number, exactly: best known hypervolume minus the hypervolume dominated by all feasible solutions so far inside the region of interest, plus the Euclidean distance of the nearest feasible solution to that region (0 if one is inside), or 3e21 while no feasible solution exists. The lines are those at which the trigger fires, completed by one for the last evaluation; the .rdat lines are the first evaluations after a restart. Once a feasible solution exists the value never gets worse. Deviation: a reading logger writes the value 0 for evaluation numbers before the first solution fed to it.", "quantifier": "all sequences of evaluations, restarts, recommendations, feeds; all triggers; exact arithmetic on normalised objective vectors", "why_tests_cant": "All histories; incremental updates can drift for specific neighbour configurations.", "anchors": ["src/logger_biobj.c:logger_biobj_tree_update", "src/logger_biobj.c:logger_biobj_evaluate"]}
{"id": "C36", "title": "Bi-objective archive file", "statement": "With all non-dominated solutions logged, the archive file contains exactly the feasible solutions that no earlier feasible solution weakly dominates, each once, in order of evaluation; with only final ones logged, exactly the final non-dominated set (the first of equal ones) in order of evaluation; otherwise nothing.", "quantifier": "all sequences of evaluations, all modes; exact arithmetic on normalised objective vectors", "why_tests_cant": "All histories.", "anchors": ["src/logger_biobj.c:logger_biobj_tree_output", "src/logger_biobj.c:logger_biobj_evaluate", "src/logger_biobj.c:logger_biobj_finalize"]}
{"id": "C37", "title": "No use of a rejected solution after it is freed", "statement": "For every proper use of a problem observed by the bi-objective observer the logger never reads or frees a solution record that has been freed and no assertion fails, and when the problem is freed the record of every feasible solution has been freed exactly once. Deviations: records of infeasible solutions are never freed, and a recommendation after the observer was freed dereferences a null pointer.", "quantifier": "all sequences of evaluations, restarts, recommendations, feeds, with the observer freed before or after", "why_tests_cant": "Memory safety over all histories.", "anchors": ["src/logger_biobj.c:logger_biobj_evaluate", "src/logger_biobj.c:logger_biobj_tree_update"]}
{"id": "C38", "title": "Balanced tree is a correct ordered set", "statement": "An ordered tree starts empty and is used by any sequence of insertions, deletions (of an item or of a node), searches, searches for the last item that is not greater, counts and purges. Nothing is undefined (no NULL or freed node is touched, every loop ends), and every outcome is that of the sorted sequence of the items inserted and not deleted: an insertion is refused exactly if an equal item is there, a deletion or search finds an equal item exactly if there is one, a purge frees every item once. Afterwards the nodes linked by next from head hold this sequence, those linked by prev from tail its reverse, the count is its length, every node keeps its address and its item and records the right size and depth, the tree is balanced and no path from the root is longer than 2 log2(n + 1), and memory outside the nodes is untouched (no leak). For single operations the comparison may have a tolerance as long as it is consistent with the sequence; the library's comparisons are orders on normalised objective vectors and on evaluation numbers. Deviation: on vectors that are not normalised the comparison with tolerance is not transitive.", "quantifier": "all sequences of fewer than 2^64 operations, all items, all comparators that are a total preorder on the items used, all memory contents and all addresses returned by malloc", "why_tests_cant": "All histories; rotations depend on shape.", "anchors": ["src/mo_avl_tree.c:653-667 avl_item_insert", "src/mo_avl_tree.c:744-823 avl_node_unlink, avl_node_delete, avl_item_delete", "src/mo_avl_tree.c:872-1002 avl_rebalance", "src/mo_avl_tree.c:239-413 searches", "src/mo_avl_tree.c:468-497 avl_tree_purge"]}
{"id": "C39", "title": "Random number generators: streams, range, seeds, memory safety", "statement": "For every 32-bit seed, the numbers coco_random_uniform returns after coco_random_new are members 12, 13, ... of the lagged Fibonacci sequence (lags 607 and 273, rounded addition modulo 1) that starts with the 607 numbers the seed expands to, divided by 2^32-1; all are in [0,1], nothing outside the state is accessed, and any two seeds differ in each of the first 595 numbers. Deviation: the documented interval is [0,1); exactly the seed whose 13th expanded number is 2^32-1 draws 1 first, and the seed for which it is 0 draws 0 first, for which coco_random_normal returns a value that is not finite. For every seed of absolute value below 127773*2^31, the legacy generator's numbers belong to the members of the Park-Miller sequence of the seed (0 and 1 taken as 1) selected by the 32-slot Bays-Durham shuffle, every table access is in bounds, every number is in (0,1), asking for fewer numbers gives a prefix, and no number repeats within the first 2^31-42 draws; larger seeds are undefined behaviour. Deviation: seeds that differ by a multiple of 2^31-1 give the same stream, and a seed that is a multiple of 2^31-1 gives 1e-99 for ever.", "quantifier": "all seeds, all numbers of draws", "why_tests_cant": "2^32 (or 2^49) seeds with unbounded streams; the extreme draws 0 and 1 occur for single seeds; memory safety of the table accesses on every stream.", "anchors": ["src/coco_random.c:coco_random_new", "src/coco_random.c:coco_random_generate", "src/coco_random.c:coco_random_uniform", "src/coco_random.c:coco_random_normal", "src/suite_bbob_legacy_code.c:bbob2009_unif"]}
{"id": "C40", "title": "Location of the optimum and optimal value of the bbob functions", "statement": "For every seed the legacy generator accepts and every dimension, the location drawn for the optimum has in each coordinate the grid point 8k/10000-4 (rounded; k = floor(10000*u) in 0..9999 for the number u drawn), with -0.00001 in place of 0; so each coordinate is in [-4,4) and none is 0; for sbox-cost the same with 10k/10000-5 and [-5,5). For every function and instance with an accepted seed, the optimal value is the quotient of the Gaussian numbers of the seed and of its successor times 100, rounded to a whole number of hundredths and limited to [-1000,1000], also when the quotient overflows; functions 4 and 18 share their values with 3 and 17 and each noisy function with its noiseless one, for every instance.", "quantifier": "all seeds, dimensions, functions, instances; all log and cos implementations that are finite and in range on (0,1) and on finite numbers", "why_tests_cant": "All seeds and dimensions; rounding could produce 4 or 0 for single grid points, an overflowing quotient has tiny probability.", "anchors": ["src/suite_bbob_legacy_code.c:bbob2009_compute_xopt", "src/suite_bbob_legacy_code.c:sbox_cost_compute_xopt", "src/suite_bbob_legacy_code.c:bbob2009_gauss", "src/suite_bbob_legacy_code.c:bbob2009_compute_fopt"]}
{"id": "C41", "title": "Problem ids are file-system safe and unique", "statement": "The validity check for problem ids accepts exactly the strings over letters, digits, '-' and '_' (the empty string included), and setting an id that contains any other character is an error. Deviation: the documentation also allows '.', which is rejected, and speaks of lower case only, while upper case is accepted. The ids composed by every suite from function, instance and dimension numbers pass the check, and within a suite different (function, instance, dimension) have different ids, for numbers of any size (more digits than the format width).", "quantifier": "all strings; all suites and all function, instance and dimension numbers below 2^64", "why_tests_cant": "All strings and all numbers, including those wider than the format's field width.", "anchors": ["src/coco_problem.c:coco_problem_id_is_fine", "src/coco_problem.c:coco_problem_set_id", "src/suite_bbob.c", "src/suite_biobj.c"]}
{"id": "C42", "title": "Observer protocol", "statement": "Observing with a missing observer (NULL) returns the problem itself, and a missing problem gives NULL. An observer that has been added can be removed at any later time as long as its wrapper is the outermost problem, and this returns the original problem; right after adding, memory is exactly as before. A bbob or bi-objective observer watches at most one problem and refuses a second one until the first is closed; other observers do not refuse. Freeing a problem frees exactly what lies inside it and its observers stop watching it; freeing an observer leaves its problem in place; in whatever order objects are freed, no freed object is touched. Deviations: removal compares only names, so another observer of the same name is accepted; removing from an unobserved problem is a fatal error although the documentation says the problem is returned; an observer that was freed is not recognised as inactive (its flag is read from freed memory); a problem observed by a toy observer cannot be evaluated after the observer was freed, nor one observed by a bbob observer that was never evaluated.", "quantifier": "all histories of creating, observing, unobserving, evaluating, recommending, restarting and freeing over any problems and observers, of a client that never passes freed objects and uses observed problems only through their outermost wrapper", "why_tests_cant": "All histories.", "anchors": ["src/coco_observer.c:coco_problem_add_observer", "src/coco_observer.c:coco_problem_remove_observer", "src/observer_bbob.c:observer_bbob_data_free", "src/logger_bbob.c:logger_bbob"]}
{"id": "C43", "title": "Reference hypervolume lookup", "statement": "Looking up the reference hypervolume of a bi-objective problem returns the value stored for its id when the id is in the table. With the shipped table every problem with functions 1-92, instances 1-15 and dimensions 2, 3, 5, 10, 20, 40 gets the value of its own line. Deviation: for an absent id the documented default is not returned, the last value of the table is; in the shipped table this is the value 1.0, so the two coincide there.", "quantifier": "all ids, all tables; all (function, instance, dimension) for the shipped table", "why_tests_cant": "All keys.", "anchors": ["src/suite_biobj_utilities.c:suite_biobj_get_best_hyp_value"]}
{"id": "C44", "title": "Bi-objective function numbering", "statement": "The bi-objective functions 1 to 55 are the pairs (a <= b) of the ten selected single-objective functions in lexicographic order, each pair exactly once; functions 56 to 92 are exactly the pairs of two different functions of the same group, not both selected, without function 16; no pair occurs twice (in either order); any other function number is an error. The closed-form inverse used for the first 55 is right for every number of base functions in exact arithmetic.", "quantifier": "all function numbers; correctness of the triangular-number inversion for every number of functions", "why_tests_cant": "The closed-form inverse with square roots is argued for all triangle sizes.", "anchors": ["src/suite_biobj_utilities.c:coco_get_biobj_problem"]}
{"id": "C45", "title": "Permutations and block structure of large-scale problems", "statement": "For more than 40 variables the truncated uniform swap permutation is obtained from the identity by the given number of swaps: the positions are visited in the ascending order of numbers drawn for them, and each is swapped with a different variable at most swap-range positions away, drawn uniformly from those; hence it is a permutation of all variables, and no memory is lost. For at most 40 variables it is the identity. The swap range and number of swaps of the large-scale suite (a third of the dimension, the dimension) are admissible. Permuting a point with a permutation and with its inverse gives the point back. The block sizes of a large-scale problem are min(dimension, 40) except for a last, non-empty block, and add up to the dimension; every row belongs to exactly one block, row i of the block rotation is the row of the rotation matrix of that block and zero outside the block's columns, and applying the rotation multiplies each segment of the point with the matrix of its block. Deviations: a swap range of 0, documented to give a uniformly distributed permutation, frees memory twice; more swaps than variables read beyond an array; dimension 0 divides by zero.", "quantifier": "all seeds, dimensions, swap counts and ranges, all sorting functions that meet the specification of qsort, all block sizes of 1 to 44, all points", "why_tests_cant": "All seeds, dimensions and sorting functions; the double free shows only under a memory checker for a parameter that no shipped problem uses.", "anchors": ["src/transform_vars_permutation_helpers.c:coco_compute_truncated_uniform_swap_permutation", "src/transform_vars_permutation.c:transform_vars_permutation_evaluate", "src/transform_vars_blockrotation_helpers.c:coco_get_block_sizes", "src/transform_vars_blockrotation_helpers.c:coco_compute_blockrotation", "src/transform_vars_blockrotation.c:transform_vars_blockrotation_apply"]}
{"id": "C46", "title": "Constraints of the constrained suite", "statement": "In exact arithmetic, building the linear constraints of a constrained problem succeeds for all random numbers whose normal vectors are not zero and, with more than one active constraint and a disguised gradient, in which no product of a drawn coordinate and a coordinate of the direction is positive but at most sqrt(n)*1e-13; then there are exactly the requested number m of active constraints (value zero at the optimum) and floor(m/2) inactive ones (negative there; none in the active-only suite); m is 1, 2, 6, 6+n/2, 6+n or 6+3n. Every constraint is linear up to a dead band: a.z-b-n*1e-11 <= c(z) <= a.z-b. The direction towards the objective's ascent and all points between it and the optimum satisfy all constraints. With non-negative multipliers, zero for the inactive constraints, the direction and the constraint gradients add up to zero; all active constraints but exactly one take random gradients of their own, and without disguise, or if it is alone, the remaining one is opposite to the direction. Deviations: for some random numbers with nonzero normal vectors the construction ends in coco_error, because the orientation test neglects tiny positive terms; an inactive constraint does not draw new numbers but repeats, up to sign, the normal vector of the last active one before it; constraint k of instance i+5 uses the random numbers of constraint k+1 of instance i.", "quantifier": "all random streams with uniform numbers in [0,1), numbers of constraints m >= 1, dimensions, instance numbers, directions that are not zero, and the three suites", "why_tests_cant": "All random draws.", "anchors": ["src/c_linear.c:c_linear_cons_bbob_problem_allocate"]}
{"id": "C47", "title": "The known optimum of constrained problems is a constrained optimum", "statement": "In exact arithmetic, for each of the 54 functions of the three constrained suites, in every dimension n >= 2, the best parameter is the location drawn for the optimum (inside [-4,4]^n), it satisfies all constraints, the best value is the value there, and there are multipliers w >= 0, zero for the inactive constraints, with best value <= f(x) + sum_k w_k (c_k(x) + n*1e-11) for every x: a feasible point is better by at most n*1e-11 times the sum of the multipliers, and a point that satisfies the constraints with a margin of n*1e-11 is not better at all. Deviation: the dead band of 1e-11 in the constraint terms makes a whole neighbourhood of the best parameter feasible, and for the sphere there always are feasible points with a value strictly below the best value.", "quantifier": "all functions, dimensions n >= 2, instances and points; all random numbers with the unconstrained optimum not at the origin, an orthogonal matrix, and integer coordinates of the location for the Rastrigin functions", "why_tests_cant": "A statement over all feasible points.", "anchors": ["src/c_linear.c:c_linear_cons_bbob_problem_allocate", "src/c_linear.c:c_guarantee_feasible_point", "src/suite_cons_bbob.c:coco_get_cons_bbob_problem"]}
{"id": "C48", "title": "Mixed-integer discretisation", "statement": "A mixed-integer problem of the suites with 5m variables has m variables with 2, m with 4, m with 8 and m with 16 integer values, and m continuous ones; other dimensions are refused. At any time, evaluating it at a finite point depends only on the nearest integer in the range of each integer variable (half-way points are rounded up) and on the continuous coordinates. The inner problem is evaluated at the same continuous coordinates and, for value k of a variable with n values, at o + (k - k*) 8/(n+1) up to 2^-45, where o is the coordinate of the inner optimum and k* that of the outer best parameter; so different integers have different points, and they stay within [-4, 4] (up to 10^-6) when o is in it. k* is an integer of the range whose point is the closest to o (up to 2*10^-6), and evaluating the best parameter evaluates the inner problem within 2^-49 of its optimum; exactly at it if o is a multiple of 2^-51, which holds for the locations drawn for bbob functions (except the replacement -10^-5 of 0). Deviations: the largest double below 1/2 counts as 1; for other coordinates, such as the 0.75 multiples of the Rosenbrock functions, the location can change in the last bit, so the best parameter is not evaluated exactly at the inner optimum.", "quantifier": "all inner problems, numbers of values up to 2^20, histories of calls, finite points", "why_tests_cant": "All points of a continuous space, all optimum locations and all histories; the rounding cases that break exactness are single doubles that tests do not hit.", "anchors": ["src/transform_vars_discretize.c:transform_vars_discretize_evaluate_function", "src/suite_bbob_mixint.c"]}
{"id": "C49", "title": "Benchmark functions attain their optimum at the advertised point", "statement": "In exact arithmetic, for every function 1-24 of the noiseless suite, every dimension of at least two and every outcome of the random generators with the location of the optimum in [-5, 5] and orthonormal rotation rows: the problem reports a best parameter inside the region of interest whose value is the reported best value, that value is the drawn optimal value, no point of the search space has a smaller value, and the reported point is where it is documented to be (the drawn location; its absolute value in the even coordinates for 4; the corner for 5; three quarters of it for 8; the halved column sums of the rotation for 9 and 19; +-1.25 for 24; the first peak for 21 and 22). Deviation: for function 20 the reported value and the value at the reported point +-2.10484373165 are above the bound by at most 3e-15, not exactly equal to it. Deviation: for function 19 with more than 64 variables the reported point is not optimal (a factor is cancelled once too often).", "quantifier": "all functions, all dimensions >= 2, all draws, all real points", "why_tests_cant": "A statement over all real vectors.", "anchors": ["src/suite_bbob.c:85-192", "src/f_sphere.c", "src/f_ellipsoid.c", "src/f_rastrigin.c", "src/f_bueche_rastrigin.c", "src/f_linear_slope.c", "src/f_attractive_sector.c", "src/f_step_ellipsoid.c", "src/f_rosenbrock.c", "src/f_discus.c", "src/f_bent_cigar.c", "src/f_sharp_ridge.c", "src/f_different_powers.c", "src/f_weierstrass.c", "src/f_schaffers.c", "src/f_griewank_rosenbrock.c", "src/f_schwefel.c", "src/f_gallagher.c", "src/f_katsuura.c", "src/f_lunacek_bi_rastrigin.c", "src/transform_vars_shift.c", "src/transform_vars_scale.c", "src/transform_vars_affine.c", "src/transform_vars_conditioning.c", "src/transform_vars_asymmetric.c", "src/transform_vars_oscillate.c", "src/transform_vars_brs.c", "src/transform_vars_z_hat.c", "src/transform_vars_x_hat.c", "src/transform_obj_shift.c", "src/transform_obj_oscillate.c", "src/transform_obj_power.c", "src/transform_obj_penalize.c", "src/transform_obj_norm_by_dim.c"]}
{"id": "C50", "title": "Real-world and toy loggers", "statement": "The toy logger writes a line for exactly those evaluations that reach a logarithmic target that no evaluation before has reached; the line has the number of the evaluation, its value, the hit target and the decision vector. The real-world logger writes a line for every evaluation, or, for one objective and log_only_better, for the first evaluation and those whose value is below all values before (feasible or not); the line has the number of function evaluations, the number of constraint evaluations so far, all objective values, and the decision variables and constraint values if the options ask for them in this dimension. Calls with NaN or infinite variables, recommendations and constraint evaluations add no line. Deviations: an infinite objective value makes the toy logger convert an infinite double to int, which is undefined; the header of a real-world file says '1 objectives' for one objective and several variables; log_only_better never logs a value of DBL_MAX or more after the first.", "quantifier": "all sequences of evaluations and options", "why_tests_cant": "It holds for every problem, every history of calls and all options; tests can only compare a few files.", "anchors": ["src/logger_toy.c:logger_toy_evaluate", "src/logger_rw.c:logger_rw_evaluate"]}
{"id": "C51", "title": "Normalised objective vectors", "statement": "If nadir and ideal differ by more than 5e-13 in both objectives, the extreme solutions (ideal1, nadir2) and (nadir1, ideal2) are normalised to exactly (0,1) and (1,0), and no normalised vector dominates either. A normalised value is the exact relative position (0 below ideal) up to 2.51e-13 plus 2^-50 of itself, unless it was set to 1 because the other value is 0, and normalisation is monotone where nothing is corrected (all for objective values and reference points up to 2^900). Two finite normalised values count as equal in the ordering of the archives, in the dominance test and in the region-of-interest test exactly when they are equal, so the ordering is a strict total order and the dominance test is Pareto dominance; up to normalised values of 1000 all comparisons agree with exact integer arithmetic in steps of 5e-13. Deviation: finite objective values can overflow to an infinite normalised one, and an infinite value or a NaN compares as greater than itself.", "quantifier": "all finite objective vectors, ideal and nadir points in binary64 arithmetic", "why_tests_cant": "All doubles.", "anchors": ["src/mo_utilities.c:mo_normalize", "src/coco_archive.c:coco_archive_compare_by_last_objective", "src/logger_biobj.c:avl_tree_compare_by_last_objective"]}
{"id": "C52", "title": "Integer logging of discrete variables", "statement": "When integer logging is enabled a non-negative integer coordinate is logged as itself; a negative integer coordinate k is logged as k+1 (deviation: conversion truncates after adding one half).", "quantifier": "all integer coordinate values in int range", "why_tests_cant": "All values; tests use non-negative ranges.", "anchors": ["src/coco_utilities.c:coco_double_to_int", "src/logger_bbob.c:logger_bbob_output"]}
{"id": "C53", "title": "Noise, boundary penalty and seeds of noisy problems", "statement": "The value of a noisy problem at a point with finite coordinates is the documented function of the noise-free value, of the boundary penalty and of random samples. The penalty is a number >= 0, is 0 exactly for points of [-5,5]^n, does not fall when coordinates move away from the domain, and is 100 times the squared distance to the domain up to the relative rounding errors of n+4 operations. The samples depend only on the numbers of uniform and Gaussian samples drawn by all noisy problems of the process since the last coco_reset_seeds (Gaussian noise needs 0 uniform and 1 Gaussian samples per evaluation, uniform noise 2 and 0, Cauchy noise 1 and 2; points with infinite or NaN coordinates draw nothing), so equal problems return equal values after histories with the same counts modulo 10^9. Seeds stay in [1,10^9], do not repeat within 10^9 draws and repeat after exactly 10^9. The noise-free value is kept in the problem (the logger uses it), the inner problem counts nothing. Functions 101+3j have Gaussian, 102+3j uniform and 103+3j Cauchy noise with the documented parameters. Deviation 1: both streams start with the same seed, so the k-th Gaussian sample is computed from the k-th uniform sample: the streams are not independent. Deviation 2: every model adds 1.01e-8 to its value, so noisy values exceed the best value by more than the target precision 1e-8 and coco_problem_final_target_hit is never true for a noisy problem, even after an evaluation of the optimum, which the logger counts as a hit.", "quantifier": "all points, all inner problems (for deviation 2: whose values are never below a best value of size at most 1000), all numbers of noisy problems in a process, all sequences of evaluations and seed resets", "why_tests_cant": "The claims range over all points including rounding and overflow of the penalty, over all interleavings of evaluations of several problems, over 10^9 draws of each stream, and over all values the noise can take (never hitting the target cannot be seen from finitely many runs).", "anchors": ["src/suite_bbob_noisy_utilities.c", "src/transform_obj_gaussian_noise.c", "src/transform_obj_uniform_noise.c", "src/transform_obj_cauchy_noise.c", "src/suite_bbob_noisy.c"]}
{"id": "C54", "title": "Reading the best parameter ends benchmarking", "statement": "Once the best parameter of a problem has been read through the API, every evaluation of a regular vector through the bbob logger is an error, whether the parameter was read before or after the observer was attached; so no performance data of a problem whose optimum has been looked up ever reaches the files.", "quantifier": "all problems, observer options and sequences of calls", "why_tests_cant": "All interleavings of reading the parameter, attaching the observer and evaluating.", "anchors": ["src/coco_problem.c:coco_problem_get_best_parameter", "src/logger_bbob.c:logger_bbob_evaluate"]}
{"id": "C55", "title": "Recommendations and restarts do not influence the performance data", "statement": "Two observed experiments with the same evaluations and constraint evaluations in the same order have identical .dat and .tdat files, totals and final differences, however many recommendations and restart signals are interleaved; if the restart signals are the same too, the .rdat files are identical.", "quantifier": "all pairs of call sequences that agree up to recommendations (and restarts)", "why_tests_cant": "A statement about pairs of arbitrary histories.", "anchors": ["src/logger_bbob.c:logger_bbob_recommend", "src/logger_bbob.c:logger_bbob_evaluate", "src/logger_bbob.c:logger_bbob_signal_restart"]}
{"id": "C56", "title": "Instances of bi-objective problems", "statement": "For the instances 1 to 15 the two objectives have the published instance numbers, whatever the suite's dimensions. For any other instance i the first objective has instance 2i+1 and the second the least of the following thousand numbers for which no two objectives are too close to each other in any dimension that is not filtered out; if there is none, an error is raised. Deviation: the choice depends on the dimensions left by the options, so that the same problem id can stand for different problems; more dimensions never give a smaller instance number, and the same set of dimensions gives the same instances.", "quantifier": "all instance numbers, all sets of dimensions, all outcomes of the closeness test", "why_tests_cant": "All instances and dimension sets; a statement about pairs of suites.", "anchors": ["src/suite_biobj_utilities.c:coco_get_biobj_problem", "src/suite_biobj_utilities.c:suite_biobj_get_new_instance"]}
{"id": "C57", "title": "Rotations are isometries", "statement": "In exact arithmetic, the matrix that the orthonormalisation makes of linearly independent columns has as many orthonormal columns, each a linear combination of the given ones, and multiplication with it preserves scalar products, hence lengths and distances of points; the same holds for every block rotation built from such matrices, whatever the block sizes. A column that is a multiple of the one before it is divided by the square root of zero.", "quantifier": "all dimensions, all linearly independent columns of real numbers, all block sizes, all pairs of points", "why_tests_cant": "Tests sample a few matrices with a tolerance; the statement is about all matrices and points and needs real arithmetic.", "anchors": ["src/suite_bbob_legacy_code.c:bbob2009_compute_rotation", "src/transform_vars_blockrotation_helpers.c:coco_compute_blockrotation", "src/transform_vars_blockrotation.c:transform_vars_blockrotation_apply"]}
{"id": "C58", "title": "Observer options mean what they say", "statement": "coco_observer returns an observer exactly for the names of observers (any name that starts with bbob-constrained is the bbob observer). Its folder is a new directory outer_folder/result_folder, with a number appended if that is taken; every other setting is the value given for its key if that is acceptable and else the default; every value given but not accepted is reported and so are unknown keys, and nothing else is reported. With values of the right form, fewer than 220 characters of options and a folder that can be made, an observer is always returned. Deviations: the name NULL is dereferenced although documented to return NULL; a key without a value is undefined behaviour; negative sizes are taken modulo 2^64 without a message; an unknown name leaves an empty folder behind; options of 220 characters or more end the program; the defaults in the code are 100 target triggers and prefix bbobexp (documented: 10 and bbobex).", "quantifier": "all option strings made of entries whose texts do not contain another key, all observer names, all behaviours of the file system and of other processes", "why_tests_cant": "Tests try a handful of option strings; the statement covers all values of 25 keys in all combinations and orders, and all interleavings with other processes.", "anchors": ["src/coco_observer.c:coco_observer", "src/observer_bbob.c:observer_bbob", "src/observer_biobj.c:observer_biobj", "src/observer_rw.c:observer_rw", "src/observer_toy.c:observer_toy", "src/coco_utilities.c:coco_options_read_size_t"]}
{"id": "C59", "title": "Benchmark functions have the published definitions", "statement": "In exact arithmetic, evaluating function 1-24 of the noiseless suite (and of its boxed variant) at any point gives the optimal value plus the value of the published formula of that function (sums of squares, oscillation, asymmetry, conditioning, rotations, boundary penalty, peaks ... composed in the published order with the published constants) for the drawn location, rotations and peaks; in particular all values move with the optimal value and with nothing else of it.", "quantifier": "all 24 functions, all dimensions >= 2, all draws, all real points", "why_tests_cant": "Tests compare a few values with stored ones computed by the same code; they neither relate the code to the formula nor cover all points.", "anchors": ["src/suite_bbob.c:85-192", "src/f_sphere.c", "src/f_ellipsoid.c", "src/f_rastrigin.c", "src/f_bueche_rastrigin.c", "src/f_linear_slope.c", "src/f_attractive_sector.c", "src/f_step_ellipsoid.c", "src/f_rosenbrock.c", "src/f_discus.c", "src/f_bent_cigar.c", "src/f_sharp_ridge.c", "src/f_different_powers.c", "src/f_weierstrass.c", "src/f_schaffers.c", "src/f_griewank_rosenbrock.c", "src/f_schwefel.c", "src/f_gallagher.c", "src/f_katsuura.c", "src/f_lunacek_bi_rastrigin.c", "src/transform_vars_shift.c", "src/transform_vars_scale.c", "src/transform_vars_affine.c", "src/transform_vars_conditioning.c", "src/transform_vars_asymmetric.c", "src/transform_vars_oscillate.c", "src/transform_vars_brs.c", "src/transform_vars_z_hat.c", "src/transform_vars_x_hat.c", "src/transform_obj_shift.c", "src/transform_obj_oscillate.c", "src/transform_obj_power.c", "src/transform_obj_penalize.c", "src/transform_obj_norm_by_dim.c"]}
{"id": "C60", "title": "Initial solutions of the constrained suite", "statement": "In exact arithmetic, the initial solution of every constrained problem lies in [-5,5]^n and satisfies all constraints, and the search for it, which halves the feasible direction until its inverse image lies in the region of interest and has no bound on its number of rounds, ends after at most five rounds, provided the numerical inversion of the oscillation and of the asymmetric map is exact; exact inverses exist for all values. The feasible direction itself is a positive multiple of the gradient, ends in [-5,5]^n when it begins at the optimum, and has at least three quarters of the largest length with this property.", "quantifier": "all 54 functions, three suites, dimensions n >= 2, instances and random numbers as in C47", "why_tests_cant": "The search loop is unbounded and its end depends on all random numbers; feasibility involves all of the up to 1.5*(6+3n) constraints for every instance.", "anchors": ["src/transform_vars_oscillate.c:transform_inv_initial_oscillate", "src/transform_vars_asymmetric.c:transform_inv_initial_asymmetric", "src/transform_vars_composed.c", "src/suite_cons_bbob_problems.c:feasible_direction_set_length"]}
{"id": "C61", "title": "Large-scale problems attain their optimum at the reported point", "statement": "In exact arithmetic, each of the functions 1-24 of the large-scale suite is delivered (and no other number), and for every dimension of at least two and every outcome of the random generators (locations in [-5,5], permutations of the variables, orthonormal blocks of at most 40 rows that add up to the dimension): the reported best parameter lies in the region of interest, has the reported best value, that value is the drawn optimal value, no point of the search space has a smaller one, and the reported point is where it is documented to be, also behind the permutations and block rotations (for 19 the halved column sums of the blocks in permuted order, without the loss the small suite has above 64 variables). Deviation: for function 20 the reported value and point are optimal up to 3e-15 only.", "quantifier": "all functions, all dimensions >= 2, all draws, all real points", "why_tests_cant": "A statement over all real vectors, permutations and rotations in dimensions of up to hundreds.", "anchors": ["src/suite_largescale.c:58-160", "src/transform_vars_blockrotation.c", "src/transform_vars_permutation.c", "src/transform_vars_round_step.c", "src/transform_vars_x_hat_generic.c", "src/transform_obj_norm_by_dim.c", "src/transform_obj_scale.c", "src/f_attractive_sector.c:158-247", "src/f_step_ellipsoid.c:187-345", "src/f_rosenbrock.c:188-262", "src/f_ellipsoid.c:176-231", "src/f_discus_generalized.c", "src/f_bent_cigar_generalized.c", "src/f_sharp_ridge_generalized.c", "src/f_different_powers.c:220-285", "src/f_rastrigin.c:192-270", "src/f_weierstrass.c:168-250", "src/f_schaffers.c:140-215", "src/f_griewank_rosenbrock.c:153-238", "src/f_schwefel_generalized.c", "src/f_gallagher.c:317-615", "src/f_katsuura.c:143-220", "src/f_lunacek_bi_rastrigin.c:247-450"]}
{"id": "C62", "title": "Large-scale functions have the published definitions", "statement": "In exact arithmetic, evaluating function 1-24 of the large-scale suite at any point gives the optimal value plus the published formula: permuted block-diagonal rotations P2 B P1 in place of full rotations, normalisation by min(1, 40/D), D/40 (rounded up) short or long axes in 11, 12 and 13, and otherwise the transformations of the noiseless suite in the published order with the published constants. Deviation: in function 7 the first argument of the maximum is D times the published one (it is multiplied by D to balance a normalisation by D that is not the one applied), so that close to the optimum the values are D times too large.", "quantifier": "all 24 functions, all dimensions >= 2, all draws, all real points", "why_tests_cant": "Tests compare a few values with stored ones computed by the same code; they neither relate the code to the formula nor cover all points.", "anchors": ["src/suite_largescale.c:58-160", "src/transform_vars_blockrotation.c", "src/transform_vars_permutation.c", "src/transform_vars_round_step.c", "src/transform_vars_x_hat_generic.c", "src/transform_obj_norm_by_dim.c", "src/transform_obj_scale.c", "src/f_attractive_sector.c:158-247", "src/f_step_ellipsoid.c:187-345", "src/f_rosenbrock.c:188-262", "src/f_ellipsoid.c:176-231", "src/f_discus_generalized.c", "src/f_bent_cigar_generalized.c", "src/f_sharp_ridge_generalized.c", "src/f_different_powers.c:220-285", "src/f_rastrigin.c:192-270", "src/f_weierstrass.c:168-250", "src/f_schaffers.c:140-215", "src/f_griewank_rosenbrock.c:153-238", "src/f_schwefel_generalized.c", "src/f_gallagher.c:317-615", "src/f_katsuura.c:143-220", "src/f_lunacek_bi_rastrigin.c:247-450"]}
{"id": "C63", "title": "Ideal and nadir point of bi-objective problems", "statement": "In exact arithmetic, a bi-objective problem evaluates the two published single-objective functions of its number, each with the location, rotation and optimal value of its own instance, on the region [-100,100]^n. Its reported ideal point consists of the two optimal values and no solution is below it in either objective; the two single-objective optima lie in [-5,5]^n and attain the ideal value in one and the nadir value in the other objective; every Pareto-optimal solution lies in the box between the ideal and the nadir point. For pairs with function 20 this holds up to 3e-15. For instances that are not in the published table, the two instances are chosen so that the ideal and the nadir point are at least 0.1 apart and the two optima at least 1e-4, in every dimension of the suite.", "quantifier": "all 92 functions, dimensions 2 to 64, all instances, all draws, all real points", "why_tests_cant": "Statements about all solutions and about the Pareto front, which cannot be enumerated.", "anchors": ["src/coco_problem.c:coco_problem_stacked_allocate", "src/coco_problem.c:coco_problem_stacked_evaluate_function", "src/suite_biobj_utilities.c:suite_biobj_check_inst_consistency", "src/suite_biobj_utilities.c:coco_get_biobj_problem", "src/suite_biobj.c:76-95", "src/mo_utilities.c:mo_get_norm"]}
{"id": "C64", "title": "Strictly boxed problems", "statement": "In exact arithmetic, each of the functions 1-24 of the boxed suite (and no other number) is delivered; its value is infinite exactly at the points with a coordinate outside of [-5,5] and equals the published function plus the optimal value at all others, where the built-in check that no value is below the best value never fails; the reported optimum lies inside the box (corners included) and is attained.", "quantifier": "all 24 functions, dimensions >= 2 (function 19: up to 64), all draws, all real points", "why_tests_cant": "A statement over all real vectors, including the boundary of the box.", "anchors": ["src/transform_vars_enforce_box.c", "src/suite_sbox_cost.c:75-205"]}
{"id": "C65", "title": "Toy suite", "statement": "In exact arithmetic, the six functions of the toy suite (and no other number) are the untransformed sphere, ellipsoid, Rastrigin (twice: the Bueche-Rastrigin function without its transformations is the Rastrigin function), linear slope and Rosenbrock functions; each reports the optimal value 0 at a point of the region of interest that attains it (the origin; (5,...,5) for the slope, whose array of coordinates is only partly initialised to 5; (1,...,1) for Rosenbrock), and no point has a smaller value.", "quantifier": "all functions, dimensions 2 to 40, all real points", "why_tests_cant": "A statement over all real vectors.", "anchors": ["src/suite_toy.c:42-66", "src/f_linear_slope.c:86-110", "src/f_sphere.c", "src/f_ellipsoid.c", "src/f_rastrigin.c", "src/f_bueche_rastrigin.c", "src/f_rosenbrock.c"]}
{"id": "C66", "title": "Result folder of the bbob logger", "statement": "After an experiment with the bbob observer in an empty result folder, the observed problems (those evaluated or recommended for at least once), in order, are cut into sessions: maximal runs of consecutive observed problems with the same function and dimension. For each function the file <prefix>_f<function>.info has exactly three lines per session of that function: a header with suite, function, dimension, algorithm and version, a line \"%\", and a line that splits at the commas into the relative name of the session's .dat file and one entry instance:evaluations|precision per problem of the session. The .dat, .tdat, .rdat and .mdat files of a session consist of, for each of its problems, one comment line and then exactly this problem's logged lines; each such line splits at blanks into five columns and the coordinates. Names are distinct for distinct sessions (a return to a function and dimension gets a numbered name -0001, -0002, ...), no other file changes, and in a non-empty folder existing files are only ever extended. Deviation: a new session is recognised by function and dimension only, so a problem of another suite following one with the same function and dimension is listed under the first suite's header.", "quantifier": "all sequences of problems, all contents of the data files, all result folders and prefixes that fit the path buffers; termination for up to 9999 problems when no file is refused", "why_tests_cant": "The names and the merging depend on the whole sequence of problems before; tests try a few sequences.", "anchors": ["src/logger_bbob.c:159-357", "src/logger_bbob.c:558-640", "src/observer_bbob.c:19-90", "src/coco_utilities.c"]}
{"id": "C67", "title": "Result folder of the bi-objective logger", "statement": "After an experiment with the bbob-biobj observer, every data file (archive .adat, indicator .dat, .tdat, .rdat and recommendation .mdat) contains what it contained before and then, in the order of the experiment, one part for each problem that belongs to it; the lines that are not comments, split at tabulators, are exactly the rows logged for these problems. With suite ids <name>_f.._i.._d.. (no underscore in the name) two problems share their indicator files exactly if they have the same type, function and dimension. If the folder had no index and problems with the same function and dimension have the same type, the index <type>_hyp.info has two header lines and then one line per session (maximal run of consecutive problems with one function and dimension), which splits at commas into the function, the dimension, the data file and one entry instance:evaluations|value per problem. No other file changes and nothing that existed is lost. Deviations: on a return to a function and dimension a second index line names the same data file, which has the data of both sessions (the bbob logger starts new files); and if the next problem has another type but the same function and dimension, its index gets no line with function, dimension and data file at all, its entry is appended to the comment line.", "quantifier": "all sequences of problems and rows, all observer modes (archive none/final/all/read, variables, indicators on or off), all earlier contents of the folder, all result folders, ids and types that fit the path buffers", "why_tests_cant": "What a file contains depends on the whole sequence of problems and on what the folder contained before; tests try a few sequences.", "anchors": ["src/logger_biobj.c:265-295", "src/logger_biobj.c:451-595", "src/logger_biobj.c:802-853", "src/logger_biobj.c:942-988", "src/logger_biobj.c:1019-1162"]}
{"id": "C68", "title": "Mixed-integer suite in exact arithmetic", "statement": "The bbob-mixint suite delivers a problem exactly for the functions 1-24 and dimensions that are multiples of five. A fifth of the variables each takes the values {0,1}, {0..3}, {0..7}, {0..15}, and the last fifth is continuous in [-5,5]. The value at x is a fixed factor (1/10000 to 10, depending on the function) times the value of the continuous function (bbob below 50 variables, bbob-largescale from 50 on) at the point where x is placed: integer coordinates are rounded and limited to their values, the values are placed at equal distances, and the grid is shifted so that the continuous optimum is exactly at the reported value, the one of the unshifted grid closest to it (up to 2e-7 of the spacing). The reported point is in the domain and has the reported best value, which is the factor times the continuous optimal value, and no point at all has a smaller value (function 20: up to 3e-16). If the optimum is in [-4,4], so are all placed points; hence narrowing the region of the inner problem to [-4,4] does not switch on the boundary penalties of the functions 4, 16, 17, 18, 23 that read it. Coordinates that round to the same value give the same function value.", "quantifier": "all functions, dimensions, points of the right length, and all draws the generators can deliver", "why_tests_cant": "The placed grid depends on the drawn optimum, and minimality quantifies over all points; tests evaluate a few points of a few instances.", "anchors": ["src/suite_bbob_mixint.c", "src/transform_vars_discretize.c", "src/transform_obj_scale.c", "src/transform_obj_penalize.c"]}
{"id": "C69", "title": "Ideal and nadir point of bi-objective mixed-integer problems", "statement": "A problem of the bbob-biobj-mixint suite has as objectives the mixed-integer versions (as in C68) of the two base functions of its pair with the base instances of its instance; integer variables have the bounds 0 and c-1, continuous ones -100 and 100. The ideal point consists of the two optimal values, the nadir point of the value of each objective at the reported optimum of the other; no point is below the ideal point and each point that is not dominated lies in the box between them (pairs with function 20: up to 3e-16). Deviation: the check that rejects instances whose ideal and nadir point are too close, or whose optima are, looks at the continuous bbob problems only (also in dimensions where the large-scale ones are used), so two problems whose continuous optima differ can have the same mixed-integer optimum, and then ideal and nadir point coincide.", "quantifier": "all pairs of functions, dimensions, instances, and all draws the generators can deliver", "why_tests_cant": "Membership of all efficient points in the box quantifies over an infinite domain, and coincidence of the two points occurs only for rare instances.", "anchors": ["src/suite_biobj_mixint.c", "src/suite_biobj_utilities.c", "src/transform_vars_discretize.c", "src/mo_utilities.c"]}
{"id": "C70", "title": "Noisy functions: noise-free optimum and disturbed values", "statement": "The bbob-noisy suite has exactly the functions 101 to 130. The noise-free value of a problem (what the logger records) is the optimal value plus the published formula of the function without penalty; the reported point lies in [-5,5]^n at the published place, has the reported best value, and no point has a smaller noise-free value. With f the noise-free difference to the optimal value, the algorithm sees the optimal value + the published noise model applied to f (Gaussian f*exp(beta*N), uniform f*U^beta*max(1,(1e9/(f+1e-99))^(alpha*U')), Cauchy f+alpha*max(0,1000+[U<p]*N/|N'|), moderate parameters for 101-106, severe ones from 107) + 1.01e-8 + 100 times the squared distance to [-5,5]^n. So no evaluation gives less than the optimal value + 1.01e-8, and at the optimum Gaussian and uniform noise vanish. Deviation 1: the published models leave differences below 1e-8 undisturbed, the code disturbs all of them, so at the optimum the value seen is never the optimal value. Deviation 2: for 125-127 with more than 64 variables the reported point is not optimal (the noise-free value there is larger than the reported best value).", "quantifier": "all functions 101-130, dimensions from 2 on, points, noise samples, and all draws of optimum, rotations and peaks the generators can deliver", "why_tests_cant": "Global minimality and the lower bound of the noisy values quantify over an infinite domain and over all noise samples; a test sees some draws of a random stream.", "anchors": ["src/suite_bbob_noisy.c", "src/suite_bbob_noisy_utilities.c", "src/transform_obj_gaussian_noise.c", "src/transform_obj_uniform_noise.c", "src/transform_obj_cauchy_noise.c", "src/f_sphere.c", "src/f_rosenbrock.c", "src/f_step_ellipsoid.c", "src/f_ellipsoid.c", "src/f_different_powers.c", "src/f_schaffers.c", "src/f_griewank_rosenbrock.c", "src/f_gallagher.c"]}
{"id": "C71", "title": "Numerical inversion behind the constrained initial solutions", "statement": "Brent's method never leaves its interval and, unless its iterations are used up, ends within xtol+rtol*|r| of the solution, for every increasing function with values of different sign at the ends. The inversion of an increasing function that takes every value and is 0 at 0 always finds an interval; its result r has the sign of the exact preimage x of y, min(|y|,|x|/2) <= |r| <= max(|y|,2|x|), and it is within 1e-14+1e-10*|r| of x unless the 200 iterations are used up. The oscillation and the asymmetric map of the code are such functions; non-positive numbers are inverted exactly under the asymmetric map. Hence, with the inverses the code computes and not with exact ones, the search for the initial solution of a constrained problem ends after at most nine rounds, the initial solution lies in [-5,5]^n, and it is within 20 tolerances per coordinate of a point that satisfies all constraints, unless the 200 iterations are used up for a number of at most 18.", "quantifier": "all increasing functions, values, intervals and iteration limits (exact arithmetic); all 54 functions, three suites, dimensions n >= 2, instances and random numbers as in C47", "why_tests_cant": "The loops that look for an interval are unbounded, the accuracy claim is about all real values and all functions of the shape, and the path of the iteration depends on every comparison.", "anchors": ["src/brentq.c:brentq", "src/brentq.c:brentinv", "src/transform_vars_oscillate.c:transform_inv_initial_oscillate", "src/transform_vars_asymmetric.c:transform_inv_initial_asymmetric", "src/transform_vars_composed.c", "src/suite_cons_bbob_problems.c"]}
{"id": "C72", "title": "Old bbob logger: records of an observed problem", "statement": "Observing a noise-free problem with known optimum (all variables continuous, or fewer than 22 of them) by the observer \"bbob-old\": the .dat file has a line for the first evaluation and for every later improvement that reaches a level of the logarithmic targets not reached by an earlier improvement other than the first evaluation, and no others; the .tdat file has a line for the documented evaluation numbers and ends with the last evaluation; every line gives the data of its evaluation (or of the best solution, if it was added when freeing); the number of evaluations and the best difference passed on to the info file are those of the whole history. Recommendations and restarts leave no trace. These are the records of the observer \"bbob\" with its linear targets switched off, except that the .dat file gets no closing line (deviation: its last line need not have the final evaluation number or difference). Further deviations from \"bbob\": a problem whose best parameter was read is still logged, noisy problems are logged with their noisy values, and coordinates are printed when there are fewer than 22 continuous variables.", "quantifier": "all problems as above with any constraints, all options with at least one target per decade, all sequences of evaluations, constraint evaluations, recommendations and restarts, all binary64 values", "why_tests_cant": "All histories and all values, including which evaluations are left out of the files.", "anchors": ["src/logger_bbob_old.c:logger_bbob_old_evaluate", "src/logger_bbob_old.c:logger_bbob_old_free", "src/logger_bbob_old.c:logger_bbob_old", "src/observer_bbob_old.c"]}
{"id": "C73", "title": "Old bbob logger: files of an experiment", "statement": "An experiment observed by \"bbob-old\" in an empty folder, whose problems come in the order of a suite (a dimension, and a function within a dimension, is not returned to once left) with at most six dimensions, in a new process or after experiments that started with the same dimension and ended with another: the folder then has exactly one index file for each function, named after the function and the instance of the very first problem, with three lines for each dimension in the order of the experiment, the third one naming the data file and listing every problem as instance, evaluations and precision; and for each function and dimension a .dat and .tdat file with a header and the records of every problem in order and an .rdat file with headers only; nothing else is changed. The experiment ends unless a file cannot be opened. In any order of the problems, existing text is only appended to, and with at most five dimensions in a process no memory outside the logger's array is written. Deviations: with the six dimensions of the suite in another order, or seven in order, a slot behind the array is written; a return to an earlier dimension continues the index file in the middle of a line; a return to an earlier function gives two index lines naming the same data file; the last but one also happens in the second of two experiments that are each in order, if they have different dimensions.", "quantifier": "all sequences of problems, all functions, dimensions, instances and results, all earlier contents of other folders", "why_tests_cant": "The logger keeps static variables for the whole process; whether the files are right depends on the whole sequence of problems before.", "anchors": ["src/logger_bbob_old.c:logger_bbob_old_openIndexFile", "src/logger_bbob_old.c:logger_bbob_old_initialize", "src/logger_bbob_old.c:logger_bbob_old_open_dataFile", "src/logger_bbob_old.c:logger_bbob_old_free"]}
{"id": "C74", "title": "Problems own their memory", "statement": "Any problem of any suite (toy, bbob, boxed, large-scale, noisy, mixed-integer, constrained, bi-objective, bi-objective mixed-integer) can be fetched, loggers can be attached and taken off again in any order and number, and it can be freed at any time, in any interleaving with other problems: no block of memory is read, written or freed after it was freed, no block that was there before is changed, no problem that is alive holds a pointer to a freed block, and with single-objective problems everything allocated has been released once all problems are freed. Deviations: each logger attached to a bi-objective problem leaks one vector; fetching a bi-objective problem with an instance outside the table leaks an array and one row for each instance of the suite; every constrained problem formats a name that is NULL with %s while it is built, which the C standard leaves undefined (the memory statements for the constrained suite suppose that the printing function accepts it).", "quantifier": "all problems of all suites in any dimension, all sequences of fetching, observing, unobserving and freeing, all earlier contents of the memory", "why_tests_cant": "Ownership is spread over free functions, shared versatile data and duplicated structures; a leak or a second free depends on the combination of function, suite, wrappers and the order of operations, and is invisible to tests of values.", "anchors": ["src/coco_problem.c:coco_problem_free", "src/coco_problem.c:coco_problem_duplicate", "src/coco_problem.c:coco_problem_transformed_free", "src/coco_problem.c:coco_problem_stacked_allocate", "src/coco_observer.c:coco_problem_remove_observer", "src/suite_biobj_mixint.c:coco_get_biobj_mixint_problem", "src/suite_biobj_utilities.c:coco_get_biobj_problem", "src/c_linear.c:c_linear_single_cons_bbob_problem_allocate"]}
{"id": "C75", "title": "Batches of an experiment", "statement": "Python: with BatchScheduler(n, k), every problem of a sequence that is handed to the n schedulers k = 0 ... n-1 in the same order is executed by exactly one of them, whatever the sequence; consecutive problems with the same function and dimension are in the same batch; the assignment is the same in every further sweep over the sequence with the same scheduler; over a suite, the problems of the d-th dimension and the f-th function are in batch (d * number of functions + f) mod n, so the batches differ by at most one group; other arguments than 0 <= k < n are rejected, except 1 and None when n is 1. An experiment with repetitions that is run in batches yields for every function and dimension the same trials and results as the undivided experiment, in one of the batches and in none of the others, if the solver's result depends only on the problem and earlier trials on the same function and dimension. Deviation: when a problem is not handed to some of the schedulers, others can be left out of all batches (the documented precondition is necessary).", "quantifier": "all sequences of problems, all numbers of batches, all numbers of sweeps, all solvers, all multipliers and numbers of successes", "why_tests_cant": "The number of a batch depends on the whole history of calls; tests fix a suite, a few batch numbers and one sweep, and cannot compare the union of all batches with the undivided experiment for all solvers.", "anchors": ["build/python/src/cocoex/utilities.py:BatchScheduler", "build/python/src/cocoex/utilities.py:ExperimentRepeater", "build/python/example/example_experiment_complete.py:64-123"]}
{"id": "C76", "title": "Repetitions of an experiment", "statement": "Python: the loop `while not repeater.done(): for problem in suite: if repeater.done(problem): continue; ...; repeater.track(problem)` with an ExperimentRepeater ends for every solver, after at most 9999 sweeps. Its first trials are one on each problem in order; only problems of the sequence are tried; each later trial is run only when, at that moment, the function and dimension has neither min_successes successes nor used budget_multiplier * dimension evaluations per tried instance, or another instance of it has more trials. When it ends before the limit, every function and dimension has enough successes or has exhausted the budget, and all its instances were tried equally often. With multiplier 0 there is exactly one sweep if the suite lists the instances of a function and dimension equally often. initial_solution_proposal hands on the number 0 in the first of every nonzero_odds + 1 trials on a function and dimension. Deviations: with multiplier 0 problems are repeated when the suite lists instances unequally often, though exactly one sweep is documented; asking trials(problem, instance) about an instance that was not tried records it, after which a finished experiment is not finished.", "quantifier": "all sequences of problems (with repetitions), all solvers, all multipliers (exact arithmetic), all numbers of successes, with or without batches", "why_tests_cant": "The loop's behaviour depends on the solver's evaluations and successes over thousands of sweeps; the existing doctest checks an empty repeater only.", "anchors": ["build/python/src/cocoex/utilities.py:ExperimentRepeater.done", "build/python/src/cocoex/utilities.py:ExperimentRepeater.track", "build/python/src/cocoex/utilities.py:ExperimentRepeater.missing_trials", "build/python/src/cocoex/utilities.py:ExperimentRepeater.trials", "build/python/src/cocoex/utilities.py:ExperimentRepeater.initial_solution_proposal"]}
{"id": "C77", "title": "Budget-dependent solvers", "statement": "Python: with ProblemNonAnytime(suite, observer, index) and a loop that runs a solver for several budgets and calls delivered(x) with the result of each run: calling the problem never raises and returns the objective value, in every run and any number of times; if the numbers of evaluations made by the runs increase, no run is rejected, the observer sees each evaluation number once and in order, an evaluation that was seen before is not shown again, the k-th evaluation of a run is shown if and only if k is larger than the number of evaluations shown before, and the solution delivered follows the evaluations of its run if its value differs from the best value shown so far; so the value of each delivered solution is among the values shown. Deviation: two runs with the same number of evaluations make delivered raise ValueError, when the result of the first one had to be recorded.", "quantifier": "all sequences of runs of all solvers, all deterministic problems", "why_tests_cant": "Which of the two problems is evaluated depends on counters that are carried over all earlier runs; tests use one budget list and one solver.", "anchors": ["build/python/src/cocoex/utilities.py:ProblemNonAnytime"]}
{"id": "C78", "title": "The problems of a Python suite", "statement": "Python: Suite(name, instance, options) raises ValueError for an unknown name and NoSuchSuiteException when nothing is selected; otherwise it contains exactly the problems selected by the strings, ordered by dimension, function and instance. After any sequence of calls: len, ids and dimensions (increasing, without repetitions) describe these problems; suite[i] returns a new problem object for the i-th of them, counted from the end when i is negative, and raises NoSuchProblemException for every other integer; suite[id] returns the first problem with this id, so every problem is found by its own id; get_problem_by_function_dimension_instance returns the first problem with the three numbers, raises NoSuchProblemException if there is none and OverflowError for numbers that are no size_t; ids(*snippets) are the ids that contain all snippets, in order, and with get_problem=True the first of these problems is returned. Every loop `for problem in suite` yields all problems in order, each valid, as often as it is repeated and whatever the body does with problems (unlike a second pass in C); next_problem returns None after the last problem, repeatedly. After suite.free() these calls raise an exception and do not reach the C library. Deviations: an unknown id raises ValueError and snippets without match raise IndexError, not NoSuchProblemException.", "quantifier": "all suites, all instance and option strings (below 10^9 characters), all sequences of calls, all loop bodies that do not move or free the suite", "why_tests_cant": "The doctests index a few problems of fresh suites; the claims are about every selection and about objects in every state that calls can produce.", "anchors": ["build/python/src/cocoex/interface.pyx:Suite", "src/coco_suite.c:coco_suite_get_problem", "src/coco_suite.c:coco_suite_get_next_problem"]}
{"id": "C79", "title": "Numbers read from problem ids", "statement": "Python: problem.id_function and problem.id_instance (and so id_triple) are the function and the instance number of the problem, for all problems of all suites with ids of the form name_f.._i.._d..; they are read from the text of the id, whose numbers have different minimal widths in different suites, and whose name may contain underscores (bbob_noisy).", "quantifier": "all suites with such ids, all function, instance and dimension numbers below 2^64", "why_tests_cant": "Tests look at some ids of some suites; the text search could be misled by a suite name or by long numbers.", "anchors": ["build/python/src/cocoex/interface.pyx:_parse_id", "build/python/src/cocoex/interface.pyx:id_function", "build/python/src/cocoex/interface.pyx:id_instance"]}
{"id": "C80", "title": "Life time of Python problems", "statement": "Python: over any sequence of calls of a suite and its problems (next_problem, reset, loops, get_problem, ids, problem.free, suite.free, disappearance of the last reference) no C problem is freed twice, and those freed are exactly the ones whose Python object is finished. A problem obtained by suite[...] or get_problem... is valid until its own free or end, also after suite.free(). A problem obtained by next_problem or a loop is valid until the next next_problem, reset or loop (or its own free) and is finished then. A finished problem stays finished; evaluating, recommending, evaluating constraints (if there are any), attaching an observer and asking for the target or the best value then raise an exception. Deviation from the documentation that all operations on a freed problem raise an exception: evaluations, evaluations_constraints and initial_solution pass a NULL pointer to C functions that do not accept it, which ends the process, and id, name, constraint (without constraints) return None.", "quantifier": "all sequences of calls on a suite and any number of its problems (observers not included)", "why_tests_cant": "Double frees and use of freed memory depend on the order of calls of several objects; a test that goes wrong may also pass by chance.", "anchors": ["build/python/src/cocoex/interface.pyx:Problem.free", "build/python/src/cocoex/interface.pyx:Problem.__dealloc__", "build/python/src/cocoex/interface.pyx:Suite.next_problem", "build/python/src/cocoex/interface.pyx:Suite.reset"]}
{"id": "C81", "title": "Observer options given as a Python dictionary reach the observer", "statement": "For dictionaries with distinct keys whose keys and values are words of printable ASCII without space, comma, quotation mark, backslash and brace that do not end in the letter u, or integers, and in which no option name occurs inside another word, Observer(name, options) is set up exactly as the dictionary says: algorithm_name, algorithm_info, outer and result folder, number of target and evaluation triggers and the precisions have the given values (out of range numbers give the default) and the defaults otherwise. ObserverOptions.update replaces values, update_gracefully keeps existing ones, and as_string passes on texts of several words in double quotation marks. Deviations: of every key and string value a last letter u is lost ('bleu' arrives as 'ble'), commas become spaces so that base_evaluation_triggers '1,2,5' arrives as '1', braces are lost, and a dictionary passed directly loses its quotation marks so that only the first word of a text arrives; non-ASCII raises UnicodeEncodeError.", "quantifier": "all dictionaries of the given form, all states of the file system", "why_tests_cant": "All dictionaries, texts and numbers; a test sees a few names.", "anchors": ["build/python/src/cocoex/interface.pyx:Observer.__cinit__", "build/python/src/cocoex/interface.pyx:_bstring", "build/python/src/cocoex/utilities.py:ObserverOptions", "src/coco_observer.c:coco_observer", "src/coco_utilities.c:coco_options_read_string"]}
{"id": "C82", "title": "Arguments of a Python script are assigned to the right names", "statement": "args_to_dict(args, known_names) returns a dictionary with exactly those known names that are abbreviated by an argument name=value, each with the value of the first such argument; every argument is used, each must contain exactly one equals sign and be the beginning of exactly one known name, and repeated values must be equal to the first, otherwise ValueError is raised; without known names every name stands for itself. The special argument batch=i/n sets the names listed for it, in order, to integers and nothing else, and is refused when the numbers of names and values differ or a value is not an integer. An argument for any other special name is refused. Deviation: a known name that is the beginning of another known name is refused even when it is written in full.", "quantifier": "all lists of arguments and known names, all evaluations of values", "why_tests_cant": "All argument lists and known names.", "anchors": ["build/python/src/cocoex/utilities.py:args_to_dict"]}
{"id": "C83", "title": "Initial solution proposals of the Python problem class stay in the domain or near the initial solution", "statement": "Problem.initial_solution_proposal: consecutive calls without argument are numbered 0, 1, 2, ...; calls with an explicit restart number are not counted. The first call without argument and every call with a number of at most 0 return the initial solution; all other calls return a random proposal. For a problem without constraints whose bounds are integers of at most 2^50, a random proposal has as many coordinates as the problem, each coordinate lies between its bounds (exactly, including all rounding in binary64) and integer variables have integer values. For a constrained problem with an initial solution within [-6, 6], every continuous coordinate differs from the initial solution by at most 1 + 2^-48. Deviation: on a constrained problem a proposal can be outside of the bounds, when the initial solution is closer than 1 to them.", "quantifier": "for all bounds, initial solutions, numbers of integer variables, all random numbers in [0,1] and all sequences of calls", "why_tests_cant": "The proposal is random: tests sample a few draws, while the claim is about every draw, including the extremes where rounding could leave the domain.", "anchors": ["build/python/src/cocoex/interface.pyx:676-728"]}
{"id": "C84", "title": "Bare bbob functions in Python: creation, single and batch evaluation", "statement": "BareProblem(\"bbob\", function, dimension, instance) with function 1 to 24 and dimension and instance in 0 to 2^31-1 gives an object with these attributes whose str() is the id of the problem with this function, instance and dimension. Other suite names raise NoSuchSuiteException; negative integers and integers that do not fit into a C int raise OverflowError. Calling the object with a vector gives the first value of the C evaluation of that vector. Calling it with a matrix that has one column per variable gives exactly the values, and leaves exactly the state, of calls with its rows one after the other. Calls never change the attributes. best_parameter() returns the first dimension entries of the stored optimum, taints the problem, and returns the same again when repeated; if it returns None nothing is changed. Deviations: NoSuchProblemException is never raised, a function number outside of 1 to 24 ends the process; the number of entries is not tested: surplus entries are ignored, too few make the C code read behind the vector, and in a matrix with too few columns the value of a row depends on the next row.", "quantifier": "for all suite names, integers, classes of problems, object states, vectors and matrices", "why_tests_cant": "Batch evaluation is tested for a few matrices; that it agrees with single evaluation for every matrix and every state, and what happens for every wrong size, is not testable (undefined behaviour often goes unnoticed).", "anchors": ["build/python/src/cocoex/bare_problem.pyx:34-166", "src/suite_bbob.c:85-192", "src/coco_problem.c:29-70", "src/coco_problem.c:634-659"]}
{"id": "C85", "title": "Random search of the Python package: budget, domain and result", "statement": "solvers.random_search(problem, lower, upper, budget): the evaluated points are lower + (upper - lower) * (a row of random numbers), one per row drawn, and with integer bounds of at most 2^50 all of them lie inside the bounds in binary64. Without constraints the problem is evaluated exactly max(0, budget) times. With constraints every point costs one evaluation of the problem and one of the constraints; the sum is at least the budget and exceeds it by at most one chunk (1 + 40000 / dimension). For one objective, if no value is NaN and there are no constraints or all evaluated points satisfy them, the result is the first evaluated point with the smallest value (None only if nothing was evaluated). With several objectives the result is None. Deviations: with constraints the point returned can be infeasible although feasible points were found (the position in the list of feasible values is used in the list of all points); with constraints a budget can be exceeded by a factor of two; a NaN value hides all other values of its chunk.", "quantifier": "for all problems (values may depend on former calls), bounds, budgets and sequences of random numbers", "why_tests_cant": "The solver is random and the doctest runs it once; a wrong point is only returned when an infeasible point was drawn before a feasible one, and nothing checks the point that is returned.", "anchors": ["build/python/src/cocoex/solvers.py:6-30"]}
{"id": "C86", "title": "SameFunction counts the directly preceding problems of the same function and dimension", "statement": "An instance of utilities.SameFunction called with the ids of problems of one suite, in any order, returns for each id the number of calls directly before with a problem of the same function and the same dimension (instances do not matter); problems further back do not count once another function or dimension came between. Deviation: skipping a problem when the number is greater than k, as the documentation does to keep k instances, keeps k + 1 instances.", "quantifier": "for all suites, all sequences of functions, instances and dimensions", "why_tests_cant": "The comparison works on pieces of text of the id; that two ids agree without the instance exactly when function and dimension agree needs the format of ids of all suites and all numbers, and the state depends on the whole history of calls.", "anchors": ["build/python/src/cocoex/utilities.py:368-423", "src/suite_bbob.c", "src/coco_problem.c"]}
{"id": "C87", "title": "Short reports between problems announce each new function and dimension once", "statement": "In a loop over problems of one suite that prints utilities.ShortInfo()(problem) before each problem and adds at least one evaluation and one run after it: the first report names dimension and function; a report for the same function and dimension as before is empty; a new function in the same dimension ends the line of the former function with the number of runs added since this function began, then names the function; a new dimension in addition ends the former dimension and names the new one. The name is 'f' with the digits of the id. Deviation: if no runs were added the next function raises OverflowError, and if no evaluations were added the next dimension raises ZeroDivisionError.", "quantifier": "for all suites, all sequences of functions, instances and dimensions, all numbers of evaluations and runs", "why_tests_cant": "The report depends on the history of all former problems and added runs; nothing tests the class and the exceptions occur only when a solver reports nothing.", "anchors": ["build/python/src/cocoex/utilities.py:485-551", "build/python/example/example_experiment.py:93-99"]}
{"id": "C88", "title": "Iterating over a suite with an observer: memory in C, Java and Rust", "statement": "In an experiment that repeatedly asks the suite for the next problem with an observer (or none) and evaluates, recommends or signals restarts on this problem only, no freed object is used and nothing is freed twice. In C and Java exactly one problem (with its logger) exists at a time, the former one is freed when the next is delivered; the last one stays after the end of the suite was reported. Wherever the loop is left, freeing observer and suite, in either order, frees every problem, logger and observer. In Rust the problem is freed at the end of its scope, between problems only the observer exists, and dropping observer and suite in either order frees everything. Deviations: in C and Java a problem object of an earlier call still looks valid, evaluating it is undefined; a client that frees the current problem itself causes a second free by the next call or when the suite is freed.", "quantifier": "all sequences of problems, all kinds of observers, all sequences of uses of the current problem, all points at which the loop is left", "why_tests_cant": "Memory errors show up only by chance; the examples run the loop to the end with one observer and one order of freeing.", "anchors": ["src/coco_suite.c:coco_suite_get_next_problem", "src/coco_suite.c:coco_suite_free", "build/c/example_experiment.c:179-239", "build/java/Benchmark.java", "build/rust/src/suite.rs:147-160", "build/rust/src/problem.rs:221-227", "build/rust/coco-sys/wrapper.c"]}
{"id": "C89", "title": "Rust programs that keep three simple rules use memory correctly and leak nothing", "statement": "In the Rust crate, take any sequence of safe calls the compiler accepts: creating observers (Observer::new), getting problems (Suite::next_problem with or without an observer, Suite::problem, problem_by_function_dimension_instance), Problem::add_observer and remove_observer, evaluate_function, Observer::signal_restart, and dropping problems and observers in any order. If (1) an observer is dropped only when no existing problem is observed by it, (2) signal_restart of a bbob or bbob-biobj observer gets a problem whose outermost observer is of the same kind, and (3) names of observed problems have at most 443 characters, there is no use of freed memory, double free or null pointer; every variable owns an existing problem or observer that no other variable owns; every object belongs to a variable, so nothing is left once all variables are dropped. (Fatal errors, for instance removing an observer that is not the outermost one, end the process.) Deviation: the crate marks these functions safe and nothing enforces rules 1 and 2: dropping the observer and then evaluating the problem (toy: freed memory; bbob before the first evaluation: null pointer), and signal_restart with a problem that is not observed, are accepted by the compiler and undefined.", "quantifier": "all finite sequences of calls with any number of problems and observers alive at the same time, all nestings of observers, all orders of dropping", "why_tests_cant": "Use after free and leaks depend on the order of drops among unboundedly many objects; a test sees a few orders and need not crash when memory is misused.", "anchors": ["build/rust/src/observer.rs:13-109", "build/rust/src/problem.rs:64-98", "build/rust/src/problem.rs:221-227", "build/rust/src/suite.rs:147-198", "build/rust/coco-sys/wrapper.c:4-7", "src/coco_suite.c:883-960", "src/coco_observer.c"]}
{"id": "C90", "title": "Evaluating from MATLAB, Rust or Java is evaluating in C, with arrays checked", "statement": "For any problem whose C functions succeed, any sequence of calls of cocoEvaluateFunction, cocoEvaluateConstraint and cocoRecommendSolution in MATLAB/Octave with any arrays completes: an array that is not of class double, or neither a row nor a column with as many entries as the problem has variables, gives a MATLAB error and changes nothing (no count, no log); the other calls are exactly the calls of C in the same order with the given values, and return all values of C in a row. The same holds in Rust for evaluate_function and evaluate_constraint, where slices x or y of a wrong length panic before anything happens. In Java longer arrays are used up to the number of variables. Deviations: Java checks nothing, an array with fewer values than variables (none infinite) makes the library read behind the end of the array; evaluating the constraints of a problem without constraints ends the whole process (MATLAB, the Java machine, the Rust program) instead of raising an error.", "quantifier": "all problems with functions that succeed, all finite sequences of calls, all arrays of any class, shape and contents (NaN and infinities included)", "why_tests_cant": "Reading a few values behind an array seldom crashes; that rejected calls leave no trace and accepted ones are those of C has to hold for every interleaving of calls with every shape.", "anchors": ["build/matlab/cocoCall.c:12-111", "build/rust/src/problem.rs:86-112", "build/java/CocoJNI.c:321-418", "src/coco_problem.c:29-148", "src/coco_runtime_c.c:80-90"]}
{"id": "C91", "title": "MATLAB gateway: names, handles and integers", "statement": "cocoCall(name, arguments) calls a function of the library exactly if name is the name of that function, in any capitalisation, and the number of arguments is that of the parameters of the .m function of this name (so all 29 .m functions reach the library); a known name with another number of arguments is an error. A handle returned for an observer, suite or problem denotes this object when it is passed back, whatever its address, with four or eight byte pointers; cocoProblemIsValid is false exactly for the null handle given at the end of a suite. Where size_t has four bytes, the integer results (cocoProblemGetDimension, GetEvaluations, GetEvaluationsConstraints, GetNumberOfObjectives, GetNumberOfConstraints, GetNumberOfIntegerVariables, FinalTargetHit) below 2^31 are right. Deviations: where size_t has eight bytes (64-bit platforms) every one of these seven functions writes eight bytes into the four bytes of a new int32 array, that is, behind its end (the bytes behind are set to zero for results below 2^32); a name that is not known gives only a warning and no result.", "quantifier": "all names, numbers of arguments, addresses and results", "why_tests_cant": "The overrun goes unnoticed as long as the allocator pads small blocks; that no two of the 29 names collide under any capitalisation and that every address survives cannot be enumerated.", "anchors": ["build/matlab/cocoCall.c:113-134", "build/matlab/cocoCall.c:202-296", "build/matlab/cocoCall.c:413-471", "build/matlab/cocoCall.c:522-535", "build/matlab/cocoCall.c:626-769"]}
{"id": "C92", "title": "Example experiments: budget, restarts and end of the loop of runs", "statement": "The example experiments in C, Java, MATLAB and Rust call an algorithm on each problem repeatedly. For every problem without constraints, every budget multiplier and number of allowed restarts, and every algorithm that makes at most as many evaluations as it is told: the experiment on this problem ends without error; the evaluations are at most dimension * multiplier in total; each run is started with exactly the rest of the budget, never with zero and never after the final target was hit; there are at most 1 + restarts runs (restarts in Rust); each run is announced to the observer as restart directly before (not in Rust: never); if the algorithm always evaluates at least once, the experiment ends only because the target is hit, the budget is used up or the number of runs is reached. MATLAB and Rust guarantee this also with constraints, counting evaluations of both kinds. The random search that comes with C, Java and MATLAB is such an algorithm if there are no constraints. Deviations: with constraints it makes two evaluations for one of its budget, so twice the budget is used in Java and MATLAB, while in C the rest of the budget wraps around and the second run gets a budget of 2^64 minus the first one: on constrained problems the C experiment does not end before 2^64 evaluations. The random search in Rust always makes one evaluation more than the budget. With constraints, C and Java compare the number of function evaluations with that of all evaluations after a run: an algorithm that keeps all rules may end the whole process (C), or be stopped after a fraction of the budget with the warning that the budget has not been exhausted.", "quantifier": "all problems, algorithms (any calls, depending on anything they see), budgets, numbers of restarts", "why_tests_cant": "The example is run on the bbob suite only, where no constraints exist; that the budget is kept for every algorithm and that the loop ends for the right reason is a statement about all interleavings of evaluations, restarts and target hits.", "anchors": ["build/c/example_experiment.c:187-229", "build/c/example_experiment.c:262-308", "build/java/ExampleExperiment.java:127-210", "build/matlab/exampleexperiment.m:90-131", "build/matlab/my_optimizer.m:1-14", "build/rust/examples/example-experiment.rs:34-81"]}
{"id": "C93", "title": "Grid search of the C example: nodes evaluated, end of the grid, region of interest", "statement": "The grid search that comes with the C example experiment lays a grid over the region of interest and evaluates its nodes. For every dimension, every number of integer variables with any upper bounds, every budget, with at least one continuous variable: no node is evaluated twice; every evaluated node is in the grid; the number of nodes evaluated is the smaller of budget and size of the grid, so the whole grid is evaluated if the budget suffices. Without integer variables, and with a budget of at least 2^dimension, the grid is the finest one whose nodes the budget suffices for, and all of it is evaluated. The points lie in the region of interest and both bounds are reached on each axis; integer variables get integer values. Deviations: a variable with values 0 to u is counted as u nodes although it has u + 1. If all variables are integer the search stops before all nodes have been evaluated, whatever the budget (with one variable in {0, 1} the value 1 is never tried); with both kinds the grid chosen may exceed the budget, so that the search is cut off, though a coarser grid would not. (Arithmetic is exact here: rounding of pow and of the coordinates is not modelled.)", "quantifier": "all dimensions, numbers and bounds of integer variables, budgets", "why_tests_cant": "The grid search is commented out in the example and never run by tests; that the odometer visits every node exactly once is a statement about all shapes of grids and all budgets.", "anchors": ["build/c/example_experiment.c:329-422"]}
{"id": "C94", "title": "Loop over the suite in the C example: every problem once, account of time per dimension", "statement": "For every suite of the library with any accepted instance and suite options, and any numbers of evaluations that the algorithm makes on its problems (less than 2^64 in each dimension): the loop of the C example over the suite ends after all problems; the array allocated for the lines on time per evaluation is never exceeded, also if dimensions were filtered out; there is exactly one line for each dimension in which at least one evaluation was made, in the order of the suite, none for the others; the number of evaluations that the time is divided by is that of all problems of this dimension (never zero), and all lines together account for every evaluation.", "quantifier": "all suites, instance and suite options, numbers of evaluations", "why_tests_cant": "The size of the array is computed from the last problem index, the entries are written on changes of dimension: that the second never exceeds the first holds for all filters and all patterns of problems without evaluations, of which tests run one.", "anchors": ["build/c/example_experiment.c:91-99", "build/c/example_experiment.c:168-240", "build/c/example_experiment.c:427-522"]}
{"id": "C95", "title": "Messages: the log level decides what is shown, the previous level is returned; MATLAB shows the same within limits", "statement": "For every sequence of calls that write messages (warnings, information, debugging output) and change the log level: each call shows exactly its formatted message with its prefix if the level in force, that is the last one set by a known name and \"info\" if there is none, includes messages of its kind, and nothing otherwise; messages appear in the order of the calls; an unknown name leaves the level as it is and is reported as a warning (not on level \"error\"), the empty name does nothing. coco_error is shown on every level and ends the process. coco_set_log_level returns the name of the level before the call, and passing it back restores that level. The MATLAB runtime shows the same text for all messages of less than 500 characters without percent sign. Deviations in MATLAB: a longer message, for example about a result folder with 467 or more characters in its path or an unknown level of 464 or more, is written beyond the end of a buffer (undefined behaviour); the message is expanded a second time as a format, so that a percent sign in a folder name is undefined behaviour or loses characters.", "quantifier": "all sequences of messages and level changes, all formats with the conversions %s, %lu, %0wlu, %% and all arguments", "why_tests_cant": "Tests look at single messages; that the level in force always is the last known one and that nothing else is written is a statement about all sequences, and the overflow depends on the length of what users pass.", "anchors": ["src/coco_runtime_c.c:16-79", "src/coco_runtime_matlab.c:16-99", "src/coco_utilities.c:30-77", "src/coco_observer.c:621"]}
{"id": "C96", "title": "The progress report of a pass through a suite has a line per dimension, each function once and a dot per problem", "statement": "On log level info or debug the first complete pass of coco_suite_get_next_problem through any suite, until NULL, writes for each dimension of the suite in order one line \"d=..., running:\" that names each function of the suite once, in order, followed by one dot for each instance, and ends with \"done\"; there are as many dots as problems. On lower levels nothing is written. Deviations: if the first dimension of the suite was removed by the options (for example dimensions: 5,20), the report begins with \"done\" before anything was run; in a second pass through the same suite the line of the first dimension is not begun.", "quantifier": "all suite descriptions, instance strings and options for which coco_suite returns a suite, all log levels", "why_tests_cant": "The report depends on the positions left by filtering and on the state of the iteration; tests look at the returned problems and not at what is written.", "anchors": ["src/coco_suite.c:883-948"]}
{"id": "C97", "title": "What each suite contains by name and by year", "statement": "coco_suite knows the names toy, bbob, bbob-boxed, bbob-biobj, bbob-biobj-ext, bbob-largescale, bbob-mixint, bbob-biobj-mixint, bbob-noisy and every name that starts with bbob-constrained; every other name ends the program. Without instance and option string each has all its functions (6, 24, 24, 55, 92, 24, 24, 92, 101 to 130 and 54), its five or six dimensions and 15 instances (toy: 1; bbob: 1-5,71-80; bbob-boxed: 1-5,101-110; else 1-15). With \"year: y\", for every y from 0 to 2147483647 with blanks around it, the suite has all functions and dimensions and the instances of that year: for bbob those of the workshop of that year, with 2009 as 1-5 three times and every year from 2023 on as 1-5,101-110. A year for which the suite has no instances ends the program: all years for toy, all but 0 and 2023 for bbob-boxed, 1 to 2008 for bbob, bbob-largescale and bbob-constrained, all from 2010 on for bbob-noisy. Deviation: the default of bbob are the instances of 2018 although the code asks for the latest year.", "quantifier": "all names, all years from 0 to the largest int, all ways to put blanks around the year (at most 200 characters)", "why_tests_cant": "The regression tests use the year 0 only and the examples the default; the claim is about every year and every name.", "anchors": ["src/coco_suite.c:37-100", "src/coco_suite.c:494-548", "src/suite_bbob.c:37-78", "src/suite_sbox_cost.c:42-70", "src/suite_biobj.c:33-66", "src/suite_cons_bbob.c:20-46", "src/suite_largescale.c:32-53", "src/suite_bbob_noisy.c:27-49"]}
{"id": "C98", "title": "The progress printed by MiniPrint", "statement": "Python: calling a cocoex.utilities.MiniPrint object with problems prints exactly one symbol per call, in order: | if the final target was hit, else : if restarted, else a dot. A header <dimension>D <time> on a line of its own is printed at the first call, when the dimension changes and when the index of the problem decreases (the suite begins again); the function f<number>, with a blank before it if it is below 10, is printed after each header and whenever the function changes. Within a dimension a row ends only where a function begins and at least 50 symbols are in the row, so no row has more than 49 symbols more than the number of calls made in a row on one function. A call with final=True prints the message, or the number of such calls so far if final_message=True. The time has two digits for minutes and seconds and +<n>d for the days since the start. Deviation: days are differences of days of the month, so they are missing or too few after the change of the month.", "quantifier": "all sequences of calls, all problems and arguments, all times", "why_tests_cant": "There is no test of the class; the positions of headers, names and line ends depend on the whole sequence of calls.", "anchors": ["build/python/src/cocoex/utilities.py:425-483"]}
{"id": "C99", "title": "Elapsed times as text", "statement": "Python: cocoex.utilities.ascetime(sec) returns for every number of seconds from 0 to 2^32 a text <h>h<mm>:<ss> with minutes and seconds from 00 to 59, never 60. The time in the text is less than 1.000001 seconds below sec and less than a millionth of a second above; for whole numbers of seconds it is right or exactly one second too small. Deviation: whole numbers of seconds are often printed one second too small because of rounding, among them the example of the documentation: 33*60+21 seconds give 0h33:20 instead of 0h33:21.", "quantifier": "all doubles from 0 to 2^32, all whole numbers in this range", "why_tests_cant": "The result depends on the rounding of three floating point operations for each of more than 10^18 numbers; there is no test of the function.", "anchors": ["build/python/src/cocoex/utilities.py:570-585"]}

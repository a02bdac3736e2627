{"id": "C01", "title": "Shifting a period by n moves it exactly n sub-periods", "statement": "For every valid period p and every integer n, p.shift(n) is a valid period of the same periodicity (its step lies between 1 and the number of sub-periods per year) and p.shift(n).difference(p) == n.", "quantifier": "all six periodicities, all years, all valid steps, all positive, null and negative shifts", "why_tests_cant": "forward and backward shifts are coded by two different branches of modular arithmetic; tests only sample a few shifts per periodicity", "anchors": ["api/time/period.h: Period::shift, Period::difference, get_nb_periods_per_year"]}
{"id": "C02", "title": "Period shifts compose", "statement": "For every valid period p and integers a and b, p.shift(a).shift(b) equals p.shift(a+b); in particular shifting by n then by -n gives back p, and shift(0) is the identity.", "quantifier": "all valid periods, all pairs of integer shifts of any sign", "why_tests_cant": "needs agreement of the forward and backward branches at every year boundary", "anchors": ["api/time/period.h: Period::shift, operator=="]}
{"id": "C03", "title": "difference is an exact signed distance", "statement": "For valid periods of one periodicity: difference(p,q) = -difference(q,p), difference(p,r) = difference(p,q)+difference(q,r), difference(p,q)=0 iff p==q, and q.shift(difference(p,q)) is p. Periods of different periodicities are rejected by an exception.", "quantifier": "all pairs and triples of valid periods", "why_tests_cant": "algebraic law over an infinite domain", "anchors": ["api/time/period.h: Period::difference, Period::shift, operator=="]}
{"id": "C04", "title": "Period text round trip", "statement": "For every valid period p whose year has four digits, parsing the text produced by to_string() gives p back; two different valid periods of the same year range never print the same text.", "quantifier": "all valid periods with a year between 1000 and 9999 and any of the six periodicities", "why_tests_cant": "parser and printer are independent code; the parser remaps small years", "anchors": ["api/time/period.h: Period(const std::string&), to_string"]}
{"id": "C05", "title": "Every period accepted from text is a valid period", "statement": "Whenever Period(text) does not throw, the resulting step lies between 1 and the number of sub-periods per year of its periodicity.", "quantifier": "all strings", "why_tests_cant": "input space is all strings; a test suite only holds the malformed strings its author thought of", "anchors": ["api/time/period.h: Period(const std::string&)"]}
{"id": "C06", "title": "A sample numbers its periods consistently", "statement": "For every sample with first period s and n periods, the position of s.shift(i) in the sample is i for each 0<=i<n, every other period of the same periodicity is rejected, and the list of periods of the sample holds exactly these n periods in order.", "quantifier": "all samples, all periods", "why_tests_cant": "a universally quantified index law on which all value lookups by period rest", "anchors": ["api/time/sample.h: Sample::get_period_position, get_list_periods, constructor"]}
{"id": "C07", "title": "Sample intersection is set intersection", "statement": "The intersection of two samples with the same periodicity contains exactly the periods belonging to both; it is rejected exactly when no period is common.", "quantifier": "all pairs of samples with a common periodicity", "why_tests_cant": "interval overlap has many relative positions", "anchors": ["api/time/sample.h: Sample::intersection"]}
{"id": "C08", "title": "The period count of a sample is the number of its periods", "statement": "For every sample that can be constructed, nb_periods equals the number of periods from start to end inclusive.", "quantifier": "all pairs start <= end", "why_tests_cant": "depends on the magnitude of the range (the count is stored in a 16 bit field)", "anchors": ["api/time/sample.h: Sample::Sample, nb_periods"]}
{"id": "C09", "title": "Object names are normalised to one canonical key", "statement": "Names that differ only by surrounding blanks (and, for types whose keys are not kept as is, by letter case) designate the same object; normalising twice is the same as once; a normalised name of a type with upper (lower) case keys contains no lower (upper) case ASCII letter.", "quantifier": "all strings and all seven object types", "why_tests_cant": "a law over all strings", "anchors": ["api/objs/kdb.h: KDBInterface/KDB::to_key", "api/utils/utils.h: trim, to_upper, to_lower"]}
{"id": "C10", "title": "Every accepted variable name is read back by the LEC lexer as one name", "statement": "If a name passes the variable (scalar) name check then the LEC tokenizer reads the same text as one single variable (coefficient) token, unless it is a reserved function or keyword.", "quantifier": "all strings accepted as a variable or scalar name", "why_tests_cant": "relates two independent hand written recognisers", "anchors": ["api/utils/utils.h: check_name, get_regex_name", "api/lec/l_token.cpp: L_get_token"]}
{"id": "C11", "title": "A workspace behaves as a finite map", "statement": "For every history of add, update, set, remove, rename, merge operations on a workspace without subset, looking up a name gives the object last stored under that name and not removed since; operations that report an error leave every stored object unchanged.", "quantifier": "all finite histories of operations, all names and objects", "why_tests_cant": "quantifies over histories", "anchors": ["api/objs/kdb.h: KDBTemplate::set_obj_ptr, add, update, remove, rename, get_obj_ptr, contains"]}
{"id": "C12", "title": "Position and name agree", "statement": "In every reachable workspace the names are strictly increasing, get_name(i) and index_of are inverse of each other, and size() is the number of names.", "quantifier": "all reachable workspaces, all positions", "why_tests_cant": "invariant of all histories", "anchors": ["api/objs/kdb.h: index_of, get_name, get_names, size"]}
{"id": "C13", "title": "A subset always shows the same object as its parent", "statement": "At any time, for every name of a live subset of a workspace, the parent also holds that name and both give access to the same object.", "quantifier": "all histories of operations on a parent workspace and its subsets", "why_tests_cant": "quantifies over histories mixing parent and subset operations", "anchors": ["api/objs/kdb.h: get_subset, set_obj_ptr, rename, remove, clear, set_obj_ptr_no_check"]}
{"id": "C14", "title": "A deep copied subset is isolated", "statement": "After a deep copy, no operation on the copy changes what the original shows and conversely.", "quantifier": "all histories of operations on the copy (on the original)", "why_tests_cant": "non-interference over all later histories", "anchors": ["api/objs/kdb.h: get_subset (deep copy), deep_copy, set_obj_ptr"]}
{"id": "C15", "title": "rename moves the object and nothing else", "statement": "When rename(old,new) succeeds the object of old is found under new, old is not found any more, and every other name keeps its object, in the workspace and in each of its subsets.", "quantifier": "all workspaces, all pairs of names, with and without overwrite", "why_tests_cant": "many aliasing cases (new exists, old equals new, name in some subsets only)", "anchors": ["api/objs/kdb.h: rename"]}
{"id": "C16", "title": "remove deletes exactly one name", "statement": "When remove(name) reports success the name is not found any more in the workspace, in its parent (if it is a subset) nor in any subset of the parent, and every other name is unchanged everywhere; when it reports failure nothing changes.", "quantifier": "all workspaces and names", "why_tests_cant": "many aliasing cases", "anchors": ["api/objs/kdb.h: remove"]}
{"id": "C17", "title": "Comment names are case-insensitive everywhere", "statement": "For a workspace of comments, if a name is contained in any letter case then get, remove and rename with that spelling act on the stored object, and two names that differ only by case are never stored together.", "quantifier": "all comment workspaces, all spellings", "why_tests_cant": "relates lookup, insertion and deletion for all spellings", "anchors": ["api/objs/kdb.h: contains, get_key, remove, rename, set_obj_ptr, to_key"]}
{"id": "C18", "title": "merge keeps or replaces exactly as asked", "statement": "After merging another workspace, each name of the other workspace is present; with overwrite its object equals that of the other workspace, without overwrite an existing object is kept; names absent from the other workspace are unchanged.", "quantifier": "all pairs of workspaces, both modes", "why_tests_cant": "quantifies over the overlap pattern of two maps", "anchors": ["api/objs/kdb.h: merge"]}
{"id": "C19", "title": "Every variable has one value per period", "statement": "In every reachable variables workspace, each variable holds exactly nb_periods values of the current sample.", "quantifier": "all histories of sample changes, additions, updates and merges", "why_tests_cant": "invariant over histories", "anchors": ["api/objs/k_wsvar.cpp: KDBVariables::set_obj_ptr, set_sample, KV_add, KV_merge"]}
{"id": "C20", "title": "Changing the sample keeps every value of the common periods", "statement": "After set_sample, each variable has its old value at every period common to the old and new sample and NA at all other periods of the new sample; when the change is refused nothing is modified.", "quantifier": "all variables workspaces and all pairs of samples", "why_tests_cant": "relative position of two intervals, all values", "anchors": ["api/objs/k_wsvar.cpp: KDBVariables::set_sample"]}
{"id": "C21", "title": "Display modes are inverse: reading back a value set in a mode returns it", "statement": "In exact arithmetic, after writing v for a period in a mode (level, difference, growth rate, difference and growth rate on one year), reading the same period in the same mode returns v, whenever the reference value is available and not zero and v and the resulting level are numbers (not NA); no other period changes.", "quantifier": "all variables, periods, modes and values", "why_tests_cant": "two independent switch statements must be inverse for all values", "anchors": ["api/objs/k_wsvar.cpp: KV_get, KV_set"]}
{"id": "C22", "title": "Initialisation of a value never touches other periods and honours the if-NA / if-zero condition", "statement": "KV_init_values at period t changes at most the value at t, and changes it only when the method is unconditional or the value is NA (or zero for methods that say so); the new value is the one announced by the method.", "quantifier": "all methods, vectors and positions", "why_tests_cant": "seven methods times NA/zero/short history cases", "anchors": ["api/objs/k_wsvar.cpp: KV_init_values_1, KV_extrapolate"]}
{"id": "C23", "title": "Packed objects are read back unchanged", "statement": "After packing any sequence of byte blocks, the k-th block read from the pack starts with the k-th packed bytes, at a 4-byte aligned position, and the pack length is consistent with its content.", "quantifier": "all finite sequences of blocks of any length", "why_tests_cant": "index table is moved each time the number of blocks crosses a power boundary", "anchors": ["api/objs/pack.cpp: P_create, P_add, P_get_ptr, P_get_len, P_nb"]}
{"id": "C24", "title": "Wildcard matching follows the documented pattern language", "statement": "The pattern matcher accepts a text exactly when the text belongs to the language of the pattern, where '*' stands for any sequence of characters, '?' for one character, other characters for themselves (or their other case when case is ignored).", "quantifier": "all patterns and all texts", "why_tests_cant": "language equality; backtracking matchers fail on rare combinations", "anchors": ["scr4 SCR_grep_gnl", "api/objs/k_grep.cpp: KDB::grep"]}
{"id": "C25", "title": "Operator expressions are evaluated with the documented precedence and associativity", "statement": "Compiling the text of any fully lexed expression made of constants, variables, coefficients, parentheses, unary signs, one argument functions and binary operators and executing the result gives the value of the expression tree in which ^ binds tighter than * and /, these tighter than + and -, these tighter than comparisons, these tighter than 'and', and 'or' weakest, operators of equal priority associating to the left.", "quantifier": "all expressions of unbounded size and nesting, all variable values", "why_tests_cant": "compiler correctness", "anchors": ["api/lec/l_compile.cpp: generate_lec_expression, L_add_stack, L_priority_sup, L_save_op, L_empty_ops_stack", "api/lec/l_exec.cpp: L_exec_sub"]}
{"id": "C26", "title": "The result of compiling a formula depends only on its text", "statement": "Compiling a LEC formula gives the same result whatever formulas, valid or not, were compiled before in the same session.", "quantifier": "all histories of compilations", "why_tests_cant": "quantifies over session histories including failed compilations", "anchors": ["api/lec/l_compile.cpp: generate_lec_expression, L_OPS, L_EXPR, L_NAMES"]}
{"id": "C27", "title": "Execution of a compiled formula never reads below the value stack and leaves exactly one value", "statement": "Executing the compiled form of any accepted formula consumes for each function and operator exactly its own arguments, never reads an empty stack, and ends with exactly one value.", "quantifier": "all accepted formulas", "why_tests_cant": "stack discipline over all programs", "anchors": ["api/lec/l_exec.cpp: L_exec_sub", "api/lec/l_exec_fns.cpp", "api/lec/l_exec_tfn.cpp", "api/lec/l_exec_mtfn.h: LEC_MTFN::execute"]}
{"id": "C28", "title": "if(c,x,y) selects x when c is true and y otherwise", "statement": "For all values c, x, y the formula if(c,x,y) evaluates to x when c is a number different from zero and to y otherwise; div0(x,y) evaluates to x/y when y is not zero and to 0 when y is zero.", "quantifier": "all values of the arguments", "why_tests_cant": "all argument values; a symmetric test value hides an argument swap", "anchors": ["api/lec/l_exec_fns.cpp: L_if, L_div0"]}
{"id": "C29", "title": "NA is propagated by operators and ordinary functions", "statement": "A binary operator gives NA when one operand is NA; a function other than those documented to accept NA gives NA when any of its arguments is NA.", "quantifier": "all operators and functions, all argument lists, all positions of the NA argument", "why_tests_cant": "position of the NA argument in argument lists of any length", "anchors": ["api/lec/l_exec_ops.h: LEC_OP::execute", "api/lec/l_exec_fns.h: LEC_FN::execute", "api/lec/l_exec.cpp: L_stack_is_nan"]}
{"id": "C30", "title": "A lag written after a parenthesised expression applies to every variable inside", "statement": "The value of (e)[-k] at period t is the value of e at period t-k, for every expression e made of operators, functions, variables and nested lags, without absolute periods.", "quantifier": "all expressions, all lags, all periods", "why_tests_cant": "structural law over all expressions", "anchors": ["api/lec/l_compile.cpp: L_analyze_lag, L_lag_expr, L_sub_expr"]}
{"id": "C31", "title": "Reading a variable outside the sample gives NA", "statement": "A variable with a lag or an absolute period evaluated at t gives the value stored at the designated period when that period is inside the sample and NA otherwise, never a value of another variable or period.", "quantifier": "all lags, periods, samples and evaluation periods", "why_tests_cant": "index computation over all lags; out of range would be memory corruption", "anchors": ["api/lec/l_value.h: LEC_VAR::calculate_ref, add_to_stack", "api/lec/l_link.cpp: L_link_sample_expr"]}
{"id": "C32", "title": "Compiled byte code decodes to the compiled elements", "statement": "Executing the byte form of a compiled formula gives the same value as executing the sequence of compiled elements; lengths announced for time function arguments are the lengths of the encoded arguments.", "quantifier": "all accepted formulas, of any nesting of time functions", "why_tests_cant": "encoder moves already written bytes; decoder relies on stored lengths", "anchors": ["api/lec/k_lec.cpp: CLEC::initialize", "api/lec/l_value.h", "api/lec/l_exec_tfn.h: LEC_TFN::add_to_buffer", "api/lec/l_exec_mtfn.h: LEC_MTFN::add_to_buffer"]}
{"id": "C33", "title": "Time functions aggregate exactly the requested window", "statement": "sum, mean, vmax, vmin, prod, lastobs over [from,to] return the announced aggregate of the expression over exactly these periods (bounds swapped if needed) and NA when one of the values needed is NA (lastobs: the last available value).", "quantifier": "all windows, all expressions, all series", "why_tests_cant": "all window positions and NA patterns", "anchors": ["api/lec/l_exec_tfn.cpp: L_extract_time_range, L_sum, L_mean, L_vmax, L_vmin, L_prod, L_lastobs"]}
{"id": "C34", "title": "Lagged variables are honoured inside correlation, covariance and filter functions", "statement": "In functions taking several series (corr, covar, var, index, acf, app, hp...) a lagged or dated variable in an argument designates the same period as outside of such a function.", "quantifier": "all formulas using these functions", "why_tests_cant": "depends on a linking pass over nested byte code", "anchors": ["api/lec/l_link.cpp: L_link_sample_expr", "api/lec/l_exec_mtfn.h: LEC_MTFN"]}
{"id": "C35", "title": "Solving an equation analytically preserves its solutions", "statement": "In exact arithmetic: if an equation is solved for its endogenous variable by inversion and the resulting expression evaluates to v, then giving v to the endogenous variable satisfies the original equation, provided the functions involved are used inside their domain.", "quantifier": "all equations accepted by the inversion, all values of the other variables", "why_tests_cant": "symbolic transformation over all equation shapes", "anchors": ["api/lec/l_eqs.cpp: L_invert, L_split_expr, L_sub_expr"]}
{"id": "C36", "title": "Inversion of an equation ends with a result or a reported error", "statement": "For every pair of texts (equation, endogenous name) inversion returns a compiled expression or an error code; it never raises an unexpected exception nor reads an empty container.", "quantifier": "all texts", "why_tests_cant": "all malformed inputs", "anchors": ["api/lec/l_eqs.cpp: L_invert, generate_lec_expression_eq"]}
{"id": "C37", "title": "The simulation order contains each equation exactly once", "statement": "The execution order computed for a model is a permutation of its equations, for each sort option and any number of triangulation passes, and the sizes of the three blocks add up to the number of equations.", "quantifier": "all dependency graphs, all numbers of passes", "why_tests_cant": "quantifies over all graphs", "anchors": ["api/simulation/k_sim_order.cpp: order, build_pre_post_list, build_inter_list, compute_tri, compute_tri_perm1"]}
{"id": "C38", "title": "Prolog equations depend only on earlier equations; nothing depends on later epilog equations", "statement": "In the computed order, every endogenous variable used by a prolog equation is computed earlier in the prolog, and no equation of the prolog, of the interdependent block, or placed earlier in the epilog uses the endogenous variable of an epilog equation.", "quantifier": "all dependency graphs", "why_tests_cant": "quantifies over all graphs", "anchors": ["api/simulation/k_sim_order.cpp: pre_order, build_pre_post_list, order"]}
{"id": "C39", "title": "Recursive models are recognised as fully recursive", "statement": "If the model has no simultaneous equations, every equation is put in the prolog and no iteration is needed.", "quantifier": "all acyclic dependency graphs", "why_tests_cant": "quantifies over all acyclic graphs", "anchors": ["api/simulation/k_sim_order.cpp: pre_order, build_pre_post_list"]}
{"id": "C40", "title": "A successful simulation stops at a fixed point within the tolerance", "statement": "When simulating a period succeeds, one more pass over the interdependent equations from the stored values changes no endogenous variable by more than the convergence threshold (in the measure min of absolute and relative change), and the number of passes is at most the maximum.", "quantifier": "all models, all initial values, thresholds and relaxations", "why_tests_cant": "depends on arbitrary numeric behaviour of the model including infinities", "anchors": ["api/simulation/k_sim_main.cpp: sub_simulate, interdep, sub_interdep_1, sub_interdep_2, restore_XK"]}
{"id": "C41", "title": "Simulation modifies only the endogenous variables in the simulated periods", "statement": "Whatever its outcome, the simulation of a period changes no variable other than the endogenous variables of the model, and no value at another period.", "quantifier": "all models and all outcomes (convergence, divergence, NA, interruption)", "why_tests_cant": "frame property over all executions", "anchors": ["api/simulation/k_sim_main.cpp: sub_simulate, prolog, epilog, restore_XK, init_values"]}
{"id": "C42", "title": "Exchanging endogenous and exogenous variables keeps one endogenous variable per equation", "statement": "After a successful goal-seeking exchange, equations still have pairwise distinct endogenous variables, and the set of endogenous variables is the previous one with the given endogenous variable replaced by the given exogenous variable; each equation's new endogenous variable occurs in it.", "quantifier": "all models and all exchangeable pairs", "why_tests_cant": "path search over arbitrary graphs", "anchors": ["api/simulation/k_sim_exo2endo.cpp: find_path, exo_to_endo"]}
{"id": "C43", "title": "A sequence of goal-seeking exchanges is applied correctly", "statement": "Several exchanges given together are each applied to the model resulting from the previous ones, and an exchange asked for a variable that is not endogenous any more is refused.", "quantifier": "all sequences of exchanges", "why_tests_cant": "histories of exchanges", "anchors": ["api/simulation/k_sim_exo2endo.cpp: find_path, exo_to_endo", "api/simulation/k_sim_order.cpp: get_eq_position"]}
{"id": "C44", "title": "Aggregating variables by mean divides each group by its own size", "statement": "Aggregating variables by a pattern puts in each resulting variable the sum, product or mean of exactly the variables of its group, whatever the order and number of groups.", "quantifier": "all sets of variables and groupings", "why_tests_cant": "depends on the insertion order of group names", "anchors": ["api/objs/k_wsvar.cpp: KV_aggregate", "api/objs/k_grep.cpp: K_aggr"]}
{"id": "C45", "title": "Different words of a formula denote different objects", "statement": "Reading a formula, two different words never denote the same variable or scalar, and a word denotes exactly the object of that name.", "quantifier": "all formulas, all pairs of words", "why_tests_cant": "the space of words is infinite; the failure only appears beyond the name length limit", "anchors": ["api/lec/l_token.cpp: L_get_token", "scr4/s_yread.c: YY_read_word"]}
{"id": "C46", "title": "Exactly the well-formed formulas are accepted", "statement": "A LEC text is accepted by the compiler (first stage) exactly when it is empty or is the written form of an expression tree: matched parentheses, two operands per operator, a number of arguments within the limits of each function, suffixes [..] on primaries; every other text is reported as an error.", "quantifier": "all texts, accepted or not", "why_tests_cant": "tests list a few malformed formulas; acceptance of all the others is not covered", "anchors": ["api/lec/l_compile.cpp: generate_lec_expression, L_add_stack, L_save_op"]}
{"id": "C47", "title": "The value of a subexpression does not depend on what is written before it", "statement": "In a formula accepted by the compiler, the value of a function call is determined by the values of its own arguments: it does not depend on the operands and arguments written before it in the surrounding formula.", "quantifier": "all formulas, all contexts, all values including NA", "why_tests_cant": "contexts of any shape; only a NA pending on the evaluation stack at the same time as a nested call reveals it", "anchors": ["api/lec/l_exec_fns.h: LEC_FN::execute", "api/lec/l_exec.cpp: L_stack_is_nan"]}
{"id": "C48", "title": "No call on variables reads or writes outside a vector", "statement": "In every reachable variables workspace, no call reads or writes a value outside the vector of a variable or uses a sample that is not there.", "quantifier": "all histories of calls, all positions, modes and samples", "why_tests_cant": "undefined behaviour need not show in a test; depends on the history that sized each vector", "anchors": ["api/objs/k_wsvar.cpp: KV_get, KV_set, KV_add, KV_merge, KV_extrapolate, KDBVariables::set_sample, get, update"]}
{"id": "C49", "title": "The numerical solution of an equation satisfies the equation", "statement": "When the value of an endogenous variable is searched numerically (it occurs several times in its equation, or by an exchange), the value found satisfies the equation within the tolerance; otherwise a failure is reported.", "quantifier": "all equations, all starting values, all arithmetics", "why_tests_cant": "arbitrary non-linear functions with missing values, infinities and indeterminate memory", "anchors": ["api/lec/l_newton.cpp: newton, newton_sub, zero", "api/lec/l_secant.cpp: secant, L_bracket"]}
{"id": "C50", "title": "Simulating again changes nothing", "statement": "After a successful simulation of a period, simulating the same period from the values found succeeds in one pass and leaves every variable unchanged.", "quantifier": "all models without exchanges, all arithmetics, thresholds and relaxations", "why_tests_cant": "idempotence over all models and roundings; tests compare two given runs", "anchors": ["api/simulation/k_sim_main.cpp: sub_simulate, prolog, epilog, interdep, restore_XK"]}
{"id": "C51", "title": "The list _DIVER names the equations that do not converge", "statement": "When a simulation fails for lack of convergence, the list _DIVER holds exactly the interdependent equations whose last change exceeds the threshold.", "quantifier": "all models, thresholds and relaxations", "why_tests_cant": "depends on the history of all iterations", "anchors": ["api/simulation/k_sim_main.cpp: diverge, sub_simulate"]}
{"id": "C52", "title": "A simulation succeeds exactly when every period converges", "statement": "The simulation of a sample reports success only when each period converged, its values being those found; on failure the earlier periods hold converged values and the later periods are unchanged; a simulation outside of the sample of the variables is refused without any change.", "quantifier": "all models, samples and outcomes", "why_tests_cant": "all combinations of failing periods", "anchors": ["api/simulation/k_sim_main.cpp: simulate, sub_simulate"]}
{"id": "C53", "title": "Identities are executed after the identities they use", "statement": "Whenever the execution of a set of identities is accepted, each identity of the set is executed exactly once, and after every other identity of the set whose name occurs in its formula.", "quantifier": "for all sets of identities accepted for execution", "why_tests_cant": "The order depends on the whole graph of the formulas and on the alphabetical positions of the names; tests run a few small sets, the number of graphs is unbounded.", "anchors": ["api/k_exec.cpp:213-286 KI_reorder", "api/k_exec.cpp:730-765 KI_execute"]}
{"id": "C54", "title": "Circular identities are refused, others are accepted", "statement": "A set of identities is refused with an error, and the workspace is left unchanged, exactly when some of its identities use one another in a circle.", "quantifier": "for all sets of identities", "why_tests_cant": "A set is an arbitrary graph; whether every acyclic graph is accepted depends on the interplay between the passes of the ordering and the alphabetical order of the names, which examples do not cover.", "anchors": ["api/k_exec.cpp:213-286 KI_reorder", "api/k_exec.cpp:827-832 KI_exec"]}
{"id": "C55", "title": "Executed identities hold", "statement": "After the execution of identities over a sample, the value of the variable of each identity at each period of this sample is the value of its formula in the resulting workspace; a formula that uses its own variable sees the new values before the period and the former ones from the period on.", "quantifier": "for all sets of identities, workspaces, samples of execution and values", "why_tests_cant": "The identities share their variables: that no later execution spoils an earlier result holds by an invariant over the whole order, not at a few periods of one test workspace.", "anchors": ["api/k_exec.cpp:730-765 KI_execute", "api/k_exec.cpp:784-875 KI_exec", "api/report/commands/b_idt.cpp:93-146 B_IdtExecuteIdts"]}
{"id": "C56", "title": "The execution of identities changes nothing else", "statement": "The execution of identities changes no variable that is not the variable of an executed identity, and no value outside the sample of execution; a new variable is NA outside this sample. The sample of execution lies in the sample of the workspace, otherwise the execution is refused.", "quantifier": "for all sets of identities, workspaces, files and samples of execution", "why_tests_cant": "The result goes through three changes of sample (reading, cutting to the sample of execution, merging); a shift at one of them shows only for some positions of the samples.", "anchors": ["api/report/commands/b_idt.cpp:93-146 B_IdtExecuteIdts", "api/objs/k_wsvar.cpp:25-138 KV_merge, KV_merge_del", "api/objs/k_wsvar.cpp:936-1002 set_sample"]}
{"id": "C57", "title": "Identities may use coefficients", "statement": "Identities whose formulas use scalars are executed with the values of these scalars when the scalars exist in the workspace or in the given files.", "quantifier": "for all sets of identities that use coefficients and all databases of scalars", "why_tests_cant": "The claim is about every identity with a coefficient; a test with variables only passes whatever becomes of the coefficients.", "anchors": ["api/k_exec.cpp:575-604 KI_read_scls_db", "api/k_exec.cpp:663-713 KI_read_scls"]}
{"id": "C58", "title": "Variables are read from the first source that has them", "statement": "When identities are executed with a list of files (WS is the workspace), each variable is read in the first source of the list that has it, period by period, and is NA at the periods that this source does not have; a variable that no source has is an error unless it is the variable of an identity, which then starts from NA.", "quantifier": "for all lists of sources, samples and sets of identities", "why_tests_cant": "The sources have different samples and overlapping names; the loop stops as soon as all names are found. The claim ranges over all these combinations.", "anchors": ["api/k_exec.cpp:300-401 KI_read_vars_db", "api/k_exec.cpp:418-461 KI_read_vars_file", "api/k_exec.cpp:478-562 KI_read_vars"]}
{"id": "C59", "title": "Conversion from high to low periodicity aggregates the right values", "statement": "The commands WsHtoLLast, WsHtoLMean and WsHtoLSum put in each variable of the file, on each period of the workspace whose sub-periods are all in the file, the last value, the mean or the sum of the values of these sub-periods (NA when one of them is missing for the mean and the sum). Incomplete periods get NA or keep their value.", "quantifier": "for all variables, values (NA included), samples, workspaces and compatible periodicities", "why_tests_cant": "The start of the file is shifted by an integer division and a skip that depend on the sub-period at which the file begins; tests use files that begin in the first sub-period or a yearly workspace.", "anchors": ["api/report/commands/b_htol.cpp:34-82 HTOL_smpl", "api/report/commands/b_htol.cpp:103-207 B_htol"]}
{"id": "C60", "title": "Conversions of periodicity stay within the series", "statement": "Whatever the samples of the file and of the workspace, the conversion commands read and write only values of the series.", "quantifier": "for all variables, values (NA included), samples, workspaces and compatible periodicities", "why_tests_cant": "An access one element after the end of a vector usually does no visible harm; only a proof over all samples excludes it.", "anchors": ["api/report/commands/b_htol.cpp:152-191", "api/report/commands/b_ltoh.cpp:35-103 LTOH_ylin, LTOH_lin"]}
{"id": "C61", "title": "Conversion from low to high periodicity by steps", "statement": "WsLtoHStock and WsLtoHFlow with the method S put on each sub-period of the workspace the value of the period of the file it belongs to (a stock) or this value divided by the number of sub-periods (a flow); a missing value gives missing values.", "quantifier": "for all variables, values (NA included), samples, workspaces and compatible periodicities", "why_tests_cant": "The position of the first value depends on the sub-period at which the file begins; tests start in the first period of a year.", "anchors": ["api/report/commands/b_ltoh.cpp:120-153 LTOH_step", "api/report/commands/b_ltoh.cpp:264-307 LTOH_smpl"]}
{"id": "C62", "title": "Conversion from low to high periodicity, linear", "statement": "With the method L a flow is divided equally between its sub-periods; a stock is interpolated linearly between the end of a period and the end of the next one, and has on the last sub-period of a period the value of this period.", "quantifier": "for all variables, values (NA included), samples, workspaces and compatible periodicities; in exact arithmetic for the interpolation", "why_tests_cant": "The ends of the sequences of values (missing values in the middle, last period) are treated apart; a test on a full series does not see what becomes of the last value of each sequence.", "anchors": ["api/report/commands/b_ltoh.cpp:35-103 LTOH_ylin, LTOH_lin"]}
{"id": "C63", "title": "There and back", "statement": "A variable converted by steps to a finer periodicity and converted back (stock with the last value, flow with the sum) has its original values on all the periods that both workspaces cover.", "quantifier": "for all variables, values (NA included), samples, workspaces and compatible periodicities; in exact arithmetic for the sum", "why_tests_cant": "A round trip over two commands, two samples and two merges; the claim ranges over all overlaps of three samples.", "anchors": ["api/report/commands/b_ltoh.cpp:320-414 B_ltoh", "api/report/commands/b_htol.cpp:103-207 B_htol"]}
{"id": "C64", "title": "Impossible conversions are reported", "statement": "A conversion command without names, with a file that cannot be loaded, with periodicities that do not fit or without any complete common period ends with an error and leaves the program in a defined state.", "quantifier": "for all arguments of the commands", "why_tests_cant": "The error paths release objects that may not exist; each path has to be considered for all arguments.", "anchors": ["api/report/commands/b_htol.cpp:103-207 B_htol", "api/report/commands/b_ltoh.cpp:320-414 B_ltoh"]}
{"id": "C65", "title": "Conversions change nothing else", "statement": "The conversion commands change neither the sample of the workspace, nor the variables that are not in the file, nor the values on years that the file does not have.", "quantifier": "for all variables, values (NA included), samples, workspaces and compatible periodicities", "why_tests_cant": "The result is merged on an overlap of samples; a shift shows only for some positions of the samples.", "anchors": ["api/report/commands/b_htol.cpp:193-199", "api/objs/k_wsvar.cpp:53-92 KV_merge"]}
{"id": "C66", "title": "Comments survive an ASCII file", "statement": "A database of comments saved in an ASCII file and loaded again has the same names and the same comments.", "quantifier": "for all databases of comments: all accepted names, all texts (quotes, backslashes, carets, line feeds, any length below the buffer)", "why_tests_cant": "Each special character is treated by a function of the writer and another of the reader; which combinations are inverse of each other, at which column a line is cut, cannot be enumerated.", "anchors": ["api/ascii/k_cccmt.cpp:30-203 read_cmt, load_asc, save_asc", "scr4/s_yread.c:338-746 YY_read, YY_read_string, YY_read_control", "scr4/s_stdhex.c:89-104 SCR_fprintf_esc", "api/utils/yy.cpp:310-330 K_wrap", "scr4/s_sttext.c:44-78 SCR_text"]}
{"id": "C67", "title": "Lists survive an ASCII file", "statement": "A database of lists saved in an ASCII file and loaded again has the same names, and each list has the same elements; lists of several lines and short lists have the same text.", "quantifier": "for all databases of lists: all accepted names, all texts", "why_tests_cant": "Long lists are cut at a separator before column 60; whether an element is cut depends on all the positions of the separators.", "anchors": ["api/ascii/k_cclst.cpp read_lst, load_asc, save_asc", "api/utils/yy.cpp:310-330 K_wrap", "scr4/s_sttext.c:44-78 SCR_text", "scr4/s_yread.c:338-746"]}
{"id": "C68", "title": "Identities survive an ASCII file", "statement": "A database of identities saved in an ASCII file and loaded again has the same names and the same formulas.", "quantifier": "for all databases of identities: all accepted names, all formulas that compile", "why_tests_cant": "The formula goes through a reader with its own escape characters, one of which (the caret) is an operator of LEC.", "anchors": ["api/ascii/k_ccidt.cpp:39-170", "scr4/s_yread.c:497-746 YY_read_control, YY_read_string", "api/utils/yy.cpp:310-330 K_wrap"]}
{"id": "C69", "title": "Scalars survive an ASCII file", "statement": "A database of scalars saved in an ASCII file and loaded again has the same names, and the values, relaxation coefficients and standard errors are the same to 14 digits; saving it again gives the same file.", "quantifier": "for all databases of scalars: all accepted names, all doubles (NA, zero, any sign and exponent)", "why_tests_cant": "The property is about all doubles and two conversions with roundings; a test compares a few values, most of which have few digits.", "anchors": ["api/ascii/k_ccscl.cpp:31-225 read_scl, load_asc, print_scl, save_asc", "api/utils/yy.cpp:24-64 K_read_real", "scr4/s_yread.c:338-487 YY_read", "scr4/s_atof.c:47-54 SCR_atof"]}
{"id": "C70", "title": "Variables survive an ASCII file", "statement": "A workspace of variables saved in an ASCII file and loaded again has the same sample, the same names, and the same values to 15 digits, NA included; saving it again gives the same file.", "quantifier": "for all samples, all databases of variables: all accepted names, all doubles", "why_tests_cant": "All doubles and all names are concerned; the names that the reader takes for keywords and the values that it takes for names are not in the test files.", "anchors": ["api/ascii/k_ccvar.cpp:28-289 read_vec, load_yy, print_val, save_asc", "api/utils/yy.cpp:24-203 K_read_real, K_read_per, K_read_smpl", "api/ascii/ascii.h:40-82 TABLE", "scr4/s_yread.c:338-487 YY_read"]}
{"id": "C71", "title": "Cubic splines go through the stocks", "statement": "When a stock is brought to a higher periodicity by cubic splines, the new values are those of the natural cubic spline through the known values: smooth to the second derivative, straight at both ends, equal to the old value at the end of each old period.", "quantifier": "for all workspaces and samples, all pairs of periodicities where one divides the other, all runs of known values, in exact arithmetic", "why_tests_cant": "The recurrence of the second derivatives runs over an arbitrary number of points; tests compare a few printed values on one series.", "anchors": ["api/report/commands/b_ltoh.cpp:156-203 LTOH_y2cs, LTOH_ycs", "api/report/commands/b_ltoh.cpp:206-251 LTOH_cs", "api/report/commands/b_ltoh.cpp:264-400 LTOH_smpl, B_ltoh"]}
{"id": "C72", "title": "Cubic splines keep the totals of the flows", "statement": "When a flow is brought to a higher periodicity by cubic splines, the sum of the new values over each old period is the old value.", "quantifier": "for all workspaces and samples, all pairs of periodicities where one divides the other, all values, in exact arithmetic", "why_tests_cant": "The correction of each old period depends on the spline through all the others; tests compare a few printed values on one series.", "anchors": ["api/report/commands/b_ltoh.cpp:156-203 LTOH_y2cs, LTOH_ycs", "api/report/commands/b_ltoh.cpp:206-251 LTOH_cs", "api/report/commands/b_ltoh.cpp:264-400 LTOH_smpl, B_ltoh"]}
{"id": "C73", "title": "Accented texts survive the code page of the files", "statement": "A text made of characters of the code page CP850 is converted to it and back without change; every sequence of bytes of a file gives a text that is saved as the same bytes; a text with any other character is reported by an exception, never silently altered.", "quantifier": "for all texts without NUL and all sequences of bytes without NUL", "why_tests_cant": "UTF-8 and the code page have to agree on every sequence of characters, including where one character is a prefix of the bytes of another; tests use a few French words.", "anchors": ["api/utils/utils.h:91-159 oem_to_utf8, utf8_to_oem", "api/objs/k_cmt.cpp:5-34"]}
{"id": "C74", "title": "Binary files give back the database", "statement": "Saving a database in a binary file succeeds, and loading the file, into any database, gives the same description, sample, mode and objects, whether the file is compressed or not.", "quantifier": "for all databases of comments, lists, identities, scalars, variables and equations whose names have at most 20 characters and whose texts are in the code page; all lossless compressions; all values of the bytes nobody sets; all previous contents", "why_tests_cant": "The layout mixes fixed fields, packs and compressed blocks of any length; tests save and load a few fixed databases, never a sample starting in 2048 or a description of 64 characters.", "anchors": ["api/objs/k_objfile.cpp:316-613 load_binary", "api/objs/k_objfile.cpp:728-768 load", "api/objs/k_objfile.cpp:996-1220 K_cwrite, predump, save_binary", "api/objs/pack.cpp", "api/objs/k_eqs.cpp:236-338"]}
{"id": "C75", "title": "A damaged file leaves nothing behind", "statement": "A binary file cut at any place is refused, and no object of it stays in the database; more generally, whatever the bytes of the file, a load that returns false leaves the database empty.", "quantifier": "for all databases, compressed or not, all cuts; all files for the second part", "why_tests_cant": "A cut can fall anywhere in the header, the names, a length, a compressed block; tests try at most a missing file.", "anchors": ["api/objs/k_objfile.cpp:54-107 kread, K_read_len", "api/objs/k_objfile.cpp:316-613 load_binary", "api/objs/k_objfile.cpp:644-704 get_file_type_from_file"]}
{"id": "C76", "title": "Loading selected objects loads these objects", "statement": "Loading a list of names from a binary file gives exactly the objects of these names, with the values they have in the file.", "quantifier": "for all databases and all lists of names", "why_tests_cant": "The code skips objects by adding up lengths, in two different ways; tests load a few names from one file.", "anchors": ["api/objs/k_objfile.cpp:251-258 index_of_name", "api/objs/k_objfile.cpp:512-613 load_binary"]}
{"id": "C77", "title": "A database stays usable after a load", "statement": "After a load, accepted or refused, objects put in the database and saved can be loaded again.", "quantifier": "for all files and all databases", "why_tests_cant": "A refused file leaves traces in fields that no test looks at, and the damage shows only at a later load.", "anchors": ["api/objs/k_objfile.cpp:152-182 _preload_", "api/objs/k_objfile.cpp:340-361 load_binary", "api/objs/kdb.h:134-139 clear"]}
{"id": "C78", "title": "The columns of a generalised sample", "statement": "The compiler of generalised samples gives, for each sample of the language of the manual, the columns that the manual describes, in that order: operations on two periods, shifts of periods and of groups (shift 0: the first or last sub-period), lists of files, repetitions with a step, nested groups, the words BOS, EOS, NOW, PER and SUB.", "quantifier": "for all samples of the grammar, of any length and depth, all workspaces with a yearly, quarterly, monthly or weekly sample, all dates, all values of the global variables of the reader", "why_tests_cant": "The suffixes combine freely and nest; tests compile a few dozen texts.", "anchors": ["api/gsample/c_cc.cpp:551-713 COL_read_per, COL_read_y", "api/gsample/c_cc.cpp:761-1034 COL_read_rep, COL_read_f, COL_shift, COL_construct", "api/gsample/c_cc.cpp:1085-1237 COL_read_cols, COL_cc"]}
{"id": "C79", "title": "What every accepted sample gives", "statement": "Whatever the text, an accepted generalised sample gives at least one column, and the periods and files of its columns exist; a text with unbalanced parentheses or with text after its end is refused.", "quantifier": "for all texts (all lists of bytes)", "why_tests_cant": "The texts that users type are not those of the tests; the claim is about every text.", "anchors": ["api/gsample/c_cc.cpp:551-713 COL_read_per, COL_read_y", "api/gsample/c_cc.cpp:761-1034 COL_read_rep, COL_read_f, COL_shift, COL_construct", "api/gsample/c_cc.cpp:1085-1237 COL_read_cols, COL_cc"]}
{"id": "C80", "title": "Compiling a sample leaves the reader as it was", "statement": "Compiling a generalised sample has no effect on the texts read later: comments are recognised as before, and whether a sample is accepted does not depend on the samples compiled before it.", "quantifier": "for all texts, all states of the reader", "why_tests_cant": "The effect is that of a global variable of the reader on another command.", "anchors": ["api/gsample/c_cc.cpp:677-713 COL_read_y", "scr4/s_yread.c:3, 379 YY_COMMENT2"]}
{"id": "C81", "title": "A table cell shows the documented value of its formula on every column of a generalised sample", "statement": "For every table line (formulas with optional divisors), every generalised sample of the grammar and every set of loaded files: COL_cc, COL_resize and COL_exec give, in place d + j*(columns of the table), the value of cell d on sample column j as the manual defines it: the quotient formula/divisor in the period, the difference, mean difference, growth, mean growth, index, sum or mean between two periods, then the file operation; not available exactly when that value does not exist; text cells give 0.", "quantifier": "all arithmetics, files, formulas, divisors, samples, periods, operations", "why_tests_cant": "The combinations of periods, eight period operations, six file operations, missing values and periodicities are unbounded; tests print a few tables.", "anchors": ["api/gsample/c_calc.cpp:73-262 (COL_link, COL_calc)", "api/gsample/c_calc.cpp:276-380 (COL_resize, COL_exec)"]}
{"id": "C82", "title": "Laws between the columns of a table", "statement": "In exact arithmetic, for every cell and pair of periods: the base index is the growth rate plus 100; the sum is the mean times the number of periods; the difference is the mean difference times the distance and changes sign when the periods are swapped; sums and means do not depend on the order of the periods; index numbers chain; a growth at the mean growth rate in each period gives the ratio of the two values; the same laws hold for operations on two files.", "quantifier": "all cells, files, pairs of periods", "why_tests_cant": "A law over all values and distances; printed tables are rounded, so tests compare digits, not the law.", "anchors": ["api/gsample/c_calc.cpp:125-256 (COL_calc)"]}
{"id": "C83", "title": "Inverse of a matrix and systems of equations", "statement": "In exact arithmetic, a matrix returned by M_inv_1 is the inverse on both sides, and it is refused exactly when some leading block is singular (never for a definite matrix such as X'X). A vector returned by M_solve is the solution and none is found exactly when the matrix is singular, unless the elimination meets a number below 1e-25 that is not 0.", "quantifier": "all sizes, matrices, right hand sides; any exact field", "why_tests_cant": "The set of matrices is infinite and the behaviour depends on the order of the pivots; tests invert one or two matrices.", "anchors": ["scr4/s_mainv.c (M_inv_1)", "scr4/s_masol.c:125-238 (M_gel_ut, M_gel_pivot, M_bw_sub)"]}
{"id": "C84", "title": "Coefficients found by an estimation", "statement": "In exact arithmetic, for equations linear in the coefficients: after a successful estimation the residuals satisfy the normal equations (through the instruments; with the weights of a first estimation for Zellner and GLS), the fixed coefficients have not changed; with least squares no other coefficients give a smaller sum of squares and only these give it; one equation with independent columns and residuals not all 0 is found in at most two iterations from any starting values; the matrix of the instruments is the orthogonal projection on them and the constant. False, and refuted: for a coefficient whose estimate is 0 (reported as 0.1), one instrument, an exact fit (an error), convergence at the last iteration allowed (an error), a negative relaxation (undefined behaviour), and that a failure leaves the coefficients unchanged.", "quantifier": "all linear blocks, samples, coefficients, starting values, instruments; any exact ordered field", "why_tests_cant": "Optimality is a statement on all other coefficient values and all data; tests compare a few printed digits on one data set.", "anchors": ["api/estimation/e_est.cpp:54-620", "api/estimation/e_prep.cpp:221-414"]}
{"id": "C85", "title": "Statistics of an estimation", "statement": "On the real numbers, after every successful estimation (any method, linear or not): the statistics are those of the residuals with the final coefficients (sum of squares, standard error, mean, standard deviation, R2, Durbin-Watson, correlations); Durbin-Watson is between 0 and 4, R2 at most 1, the adjusted R2 at most R2, correlations between -1 and 1; for one linear equation by least squares the standard error of a coefficient is the square root of the variance of the residuals times the element of the inverse of X'X, and R2 is not negative if the mean can be reached. False, and refuted: R2 is 1 only if the residuals are 0; R2 is never negative.", "quantifier": "all problems, methods, coefficients, data; real numbers", "why_tests_cant": "Bounds and identities over all data sets; tests check printed numbers for one equation.", "anchors": ["api/estimation/e_tests.cpp:64-337"]}
{"id": "C86", "title": "Expansion of a report line", "statement": "The expansion of a line inside a report replaces, from left to right, each macro reference (with its modifier), each argument (%1%, %0%, %*%), each formula between braces, each doubled special character and each text between back quotes by what it stands for, keeps every other character, and changes nothing else; an unknown macro stays as it is written. False, and refuted: a lone special character is kept (a single % followed by -, ! or # disappears, an open brace or back quote without its pair loses characters, an open brace at the end of the line reads beyond it).", "quantifier": "all lines made of such pieces, all macros, arguments, worlds", "why_tests_cant": "The number of combinations of pieces is unbounded; tests expand a few fixed lines.", "anchors": ["api/report/engine/b_rep_engine.cpp:569-689", "api/report/engine/b_rep_engine.cpp:866-931", "api/report/engine/b_rep_engine.cpp:1034-1076", "api/report/engine/b_rep_engine.cpp:1240-1390"]}
{"id": "C87", "title": "Execution of a report", "statement": "A report made of texts, comments, $define, $undef, $label, $goto (conditional or not), commands (with or without the leading -), $onerror, $shift, $return and $abort does what its lines say, one after the other, as an abstract machine on macros, arguments, error policy, output and world says: it ends with the return code, output and world of that machine, restores the arguments and the depth, keeps its macros for a calling report and drops them at the first level; it never ends if the machine never stops.", "quantifier": "all reports of that form, all arguments, initial states, commands and worlds", "why_tests_cant": "Unbounded programs with jumps and state; tests run fixed reports and look at their output.", "anchors": ["api/report/engine/b_rep_engine.cpp:331-556", "api/report/engine/b_rep_engine.cpp:1407-1536", "api/report/engine/b_rep_engine.cpp:1642-1707", "api/report/engine/b_rep_defs.cpp", "api/report/engine/b_rep_cmds.cpp"]}
{"id": "C88", "title": "Loops of a report", "statement": "In a report, $foreach i list ... $next i executes the lines between them once for each element of the list, in order, with the macro i at the element, nested loops and jumps in the body included; after the loop the macro i has again the value it had before and the execution goes on after $next; a list without element skips to the line after $next; the rest of the report behaves as without loops. False, and refuted: a line continued by a backslash in the body makes the loop endless; an index of 12 characters or more is never an element; an element with a parenthesis or quotes is cut; a loop without $next and without element skips the rest of the report.", "quantifier": "all reports made of the lines of C87 and of loops, all lists without parentheses and quotes, all arguments, initial states, commands and worlds; induction on the lines executed", "why_tests_cant": "A test runs one report; whether every element of every list is visited once, whatever the body does, whatever loops are nested in it and whatever the macros were before, is a statement on all executions.", "anchors": ["api/report/engine/b_rep_foreach.cpp:RP_foreach", "api/report/engine/b_rep_foreach.cpp:RP_foreach_next", "api/report/engine/b_rep_foreach.cpp:RP_foreach_next_index", "api/report/engine/b_rep_foreach.cpp:RP_foreach_goto_next", "api/report/engine/b_rep_cmds.cpp:RP_goto_label", "api/report/engine/b_rep_engine.cpp:B_ReportLine"]}
{"id": "C89", "title": "Procedures of reports execute their body with their parameters and give the macros back", "statement": "In a report that defines procedures with $procdef NAME F1 F2 ... $procend and calls them with $procexec NAME words, each call executes the lines of the last definition of NAME with the macros F1, F2... at the words of the call, the last formal parameter taking all the words that are left; formal parameters without word keep the value they have outside. After the call the macros F1, F2... have the values they had before, whatever the body did to them; the other macros, the output and the workspaces are as the body left them, and execution goes on after the call, or ends if the body ended with an abort. Procedures may call other procedures and outlive the report that defines them.", "quantifier": "for every report that begins with definitions, every body, every number of words, every nesting of calls without recursion, every state of the macros", "why_tests_cant": "The engine keeps the position in the body in the procedure itself and the saved macros in macros with derived names; whether nested calls, loops and jumps in bodies, redefinitions and missing words interfere needs an argument over all reports, a test runs one report", "anchors": ["api/report/engine/b_rep_proc.cpp", "api/report/engine/b_rep_defs.cpp"]}
{"id": "C90", "title": "The Hodrick-Prescott filter gives the smoothest series", "statement": "hpstd(lambda, x) in a formula and the commands WsTrendStd give the trend of Hodrick and Prescott: the only series g that minimises the sum of (x - g)^2 plus lambda times the sum of the squares of the second differences of g over the consecutive values of x; hp and WsTrend give the series whose logarithm is the trend of the logarithm of x. Hence a straight line is its own trend, the trend has the sum and the centre of gravity of the series, the trend of a combination is the combination of the trends. Values before the first number and after the next missing one are missing in the result; series too short, or not positive in logarithms, give missing values.", "quantifier": "for every series of real numbers of any length, every lambda that is not negative, every sample", "why_tests_cant": "The filter solves a system of the size of the sample by elimination without choice of pivots and with a threshold for zeros; a test compares a few numbers, only a proof shows that no pivot vanishes and that what is found is the minimum for every series", "anchors": ["api/lec/l_hodrick.cpp", "api/lec/l_exec_mtfn.cpp", "api/report/undoc/b_trend.cpp"]}
{"id": "C91", "title": "RAS makes a matrix agree with its sums", "statement": "The command DataRasVar fills the unknown elements of a matrix of variables in a period: if it succeeds, every row has its given sum exactly and every column up to the threshold; the known elements, the other periods and the other variables are unchanged; the new elements are those of the reference period, each times a number for its row and a number for its column, so zeros stay zeros and no other matrix of this form has the same sums; if some non-negative matrix with the same zeros has the given sums, the iterations converge for every threshold; if it fails, no variable is changed.", "quantifier": "for every matrix of real numbers of any size, every controls, every threshold below 1, every workspace, pattern and lists of names", "why_tests_cant": "The result is the limit of an iteration; tests compare one small table for one threshold, only a proof shows that the iteration always converges when a solution exists and that its result is the one of the required form", "anchors": ["api/report/commands/b_ras.cpp", "api/report/commands/b_data.cpp"]}
{"id": "C92", "title": "The calculus on lists", "statement": "DataCalcLst stores in its result list the union of two lists or their intersection (each element once, in the order of first appearance), their difference (in the order of the first list) or their product (all concatenations); DataListSort stores the same elements in the order of strcmp; DataListCount gives the number of elements; DataAppend adds the elements of its text after those of the list. References to other lists are followed. No other list changes; when an operand does not exist the command fails and no list changes.", "quantifier": "for every workspace of lists, all names of lists, all lists of words of at most 128 characters with up to ten levels of references, all separators", "why_tests_cant": "The elements come from texts with several separators and nested references; tests use a few flat lists, only a proof covers all nestings, repetitions and orders", "anchors": ["api/report/commands/b_data.cpp", "scr4/s_ainit.c", "scr4/s_stun.c", "scr4/s_stinte.c", "scr4/s_stdiff.c", "api/objs/k_lst.cpp"]}
{"id": "C93", "title": "Lists made by commands stand for their elements", "statement": "A list made by a command (DataList, DataSearch, DataScan, DataCompare, DataCalcLst through KL_lst), whole or cut into numbered sublists, expands back to exactly its elements in their order when it is used as an argument; the names of the sublists are the only other lists that change; KL_expand gives the same elements when there are at most as many sublists as elements in a sublist.", "quantifier": "for every workspace, every name that leaves room for the numbers of the sublists, every number of elements, every size of sublist", "why_tests_cant": "Sublists appear only beyond 200 elements; tests use short lists and cannot cover all sizes, names and numbers of levels", "anchors": ["api/objs/k_lst.cpp", "scr4/s_ainit.c", "api/b_args.cpp"]}
{"id": "C94", "title": "The comparison of a workspace with a file", "statement": "DataCompare puts every name of the workspace or of the file in exactly one of its four lists, in the order of the names: in the workspace only, in the file only, in both and equal, in both and different. Variables over the same periods are equal exactly when the values of every period are near, relatively to those of the workspace. The other lists do not change.", "quantifier": "for every two databases of the same type with fewer than 10000 names together, all list names, all values and thresholds", "why_tests_cant": "The four lists depend on all interleavings of the names of both databases and on the order in which names are removed from the second one; tests compare one pair of small files", "anchors": ["api/objs/k_cmp.cpp", "api/report/commands/b_data.cpp"]}
{"id": "C95", "title": "The scan of formulas", "statement": "DataScan stores in _EXO exactly the variables named in the formulas of the identities, equations or tables that the database does not define itself (for tables, all of them) and in _SCAL exactly their scalars, each once and in the order of the names, also when there are so many that the lists are cut into sublists; no other list changes.", "quantifier": "for every database of identities, equations or tables, all formulas, any number of names", "why_tests_cant": "The lists are cut into sublists from 200 names on, and each name may occur in any number of formulas; tests scan one small workspace", "anchors": ["api/objs/k_lst.cpp", "api/report/commands/b_data.cpp"]}
{"id": "C96", "title": "Equations saved in an ASCII file come back when the file is loaded", "statement": "Saving the equations of a workspace in an ASCII file (.ae) and loading the file gives the same equations under the same names: formula, method, sample, comment, block, instruments, date and tests of the estimation.", "quantifier": "for every set of equations whose texts hold no control character (formula, block and instruments without quote nor backslash), with any values of the tests and any acceptance by the compiler", "why_tests_cant": "Tests load one file written once; whether a file can be read again depends on every text (quotes, words equal to keywords, blanks, empty fields) and every value of the tests (NA, infinite, 8 digits for a float), which no list of cases covers.", "anchors": ["api/ascii/k_cceqs.cpp", "api/utils/yy.cpp", "api/objs/equations.h"]}
{"id": "C97", "title": "Variables are imported from a text file as the rules say", "statement": "Importing an ASCII file of variables gives the variables of the file with the values and the sample written in it; with a file of rules, each variable is taken under the name made by the first rule whose pattern its name matches, and a variable that no rule matches is left out.", "quantifier": "for every set of variables and sample written by the program, every file of rules and every name", "why_tests_cant": "Tests import one or two files with one set of rules; how names are selected and renamed, and what happens when two names become one, depends on every pattern, every transcoding and every name.", "anchors": ["api/io/k_rules.cpp", "api/io/k_imain.cpp", "api/io/k_iasc.cpp", "api/io/import.h", "api/io/k_irasc.cpp"]}
{"id": "C98", "title": "The step-wise estimation chooses the best combination of coefficients", "statement": "For an equation, the step-wise estimation tries every combination of its free coefficients and leaves the workspace with the estimation of the combination that has the best test among those that verify the condition; the other coefficients are fixed to 0.", "quantifier": "for every equation, every estimator that gives the same result each time, every condition and test", "why_tests_cant": "Tests run one equation with two or three coefficients; that no combination is forgotten and that the best one is kept is a statement over all combinations, all orders of the results, and all failures of the estimation.", "anchors": ["api/estimation/e_step.cpp", "api/report/undoc/b_step.cpp", "api/estimation/k_est.cpp"]}
{"id": "C99", "title": "Seasonal adjustment separates the level from the seasonal factors", "statement": "A series that is a level times seasonal factors with the mean 1 is adjusted to its level: the adjusted series and the trend are the level, the irregular component is 100 and the seasonal factors are found. The units of a series change neither the decision nor the components. A series without season is left as it is.", "quantifier": "for every number of years from three, every even number of periods in a year, every level, every factors, every unit", "why_tests_cant": "Tests adjust one or two series and compare with stored numbers; that the filters (moving averages, correction of outliers, Spencer's weights) leave a level untouched for all factors and lengths is algebra over all of them.", "anchors": ["api/report/undoc/b_season.cpp"]}
{"id": "C100", "title": "Tables saved in an ASCII file and loaded again", "statement": "Tables saved with save_asc and loaded with load_asc come back under the same names, with their columns, language, header, axis limits, divider line and lines (titles, separators, cells with texts, formulas, fonts and alignments, graph and axis).", "quantifier": "for every database of tables: any number of tables, lines, columns and texts", "why_tests_cant": "Tests save and load a few sample tables; which texts, formulas, numbers and lines survive the writer and the tokenizer for all tables, and that no cell shifts into the next one, depends on all combinations of cells.", "anchors": ["api/ascii/k_cctbl.cpp", "api/objs/tables.h", "api/utils/yy.cpp", "api/objs/k_tbl.cpp"]}
{"id": "C101", "title": "Cells of the files written by the export of variables", "statement": "Exporting variables (FileExportVar / EXP_RuleExport) writes, in CSV, rotated CSV and DIF, one entry for each variable the rules keep, under its new name, with its comment (CSV, DIF) and with one cell for each period holding the value at that period, or the text for missing values; the rotated file has the same cells with rows and columns exchanged.", "quantifier": "for every rule file, sample, set of variables and comments, separator and text for missing values", "why_tests_cant": "Tests compare the output of one small workspace to a reference file; that cells never move, are never merged and belong to the right variable and period concerns all names, comments, rules, values and separators.", "anchors": ["api/io/k_emain.cpp:28-413", "api/io/k_ecsv.cpp", "api/io/k_edif.cpp"]}
{"id": "C102", "title": "Results an estimation leaves in the workspaces", "statement": "After an estimation (EqsEstimate, eqs_estimate) that succeeds, each equation that was named holds the tests, the sample and the method of its estimation; the scalars e<j>_... and the series _YCALC<j>, _YOBS<j>, _YRES<j> hold the results of the j-th equation of the block, with no value out of the sample; formulas, comments, blocks, instruments and all the other equations, scalars and series are unchanged.", "quantifier": "for every workspace of equations, scalars and variables, list of names, blocks, method and sample, and every behaviour of the numerical estimation", "why_tests_cant": "Tests estimate one or two blocks of a sample model and look at a few results; which objects are written, at which position, and that nothing else is touched concerns all lists of names, overlapping blocks and failures.", "anchors": ["api/estimation/k_est.cpp:45-343", "api/estimation/estimation.h:205-296", "api/report/commands/b_est.cpp:77-124", "api/objs/k_wsvar.cpp:151-183"]}
{"id": "C103", "title": "The Dickey-Fuller test estimates on the numbers of the series and reports the coefficients", "statement": "When the Dickey-Fuller test of a series with drift, trend (0 or 1) and an order gives a result, the formula d(_DF) := df_ * _DF[-1] + (constant) + (time) + lagged differences was estimated, from coefficients equal to 0.9, on the first maximal run of numbers of the series minus its first order+1 periods, so that every lag used is a number; the run has at least twice as many periods as coefficients; and the result holds, for each coefficient in the order of the formula, its value, its standard error and their quotient. The other equations and series do not change, and the other scalars are those the estimation leaves.", "quantifier": "all series, all values of drift and trend in {0,1}, all orders, all workspaces, any numerical estimation", "why_tests_cant": "A test can only run a few series and orders; missing values before, inside and after the run, every order and every content of the workspaces cannot be enumerated, nor can a clash of names with the user's objects.", "anchors": ["api/estimation/e_dftest.cpp:37-62", "api/estimation/e_dftest.cpp:110-126", "api/estimation/e_dftest.cpp:149-273", "api/report/commands/b_ws.cpp:688-719"]}
{"id": "C104", "title": "The diagnostics of a simulation say what happened, period by period", "statement": "After a simulation, the number of passes and the norm kept for each period of the variables describe the simulation that produced the values of this period: on success, between 1 pass and the maximum and a norm not above the threshold for each simulated period; on failure, the same for the periods before the one that stopped, and the maximum of passes with a norm above the threshold when it did not converge; zeros for all other periods. A simulation refused for an empty set of equations or its sample leaves the former diagnostics, and keeping the diagnostics does not change the values. ModelSimulateSaveNIters and ModelSimulateSaveNorms, given an accepted name, set this variable to them and change no other; @SimNIter and @SimNorm give them at each period of the sample.", "quantifier": "for all models, parameters, exchanges, samples, keys, arithmetics, former diagnostics, variables and accepted names", "why_tests_cant": "A test sees one model and the default workspace; it cannot show that the diagnostics of every period come from the same run as its values whatever the reason it stopped, nor that no other variable is touched.", "anchors": ["api/simulation/k_sim_main.cpp:439-510 CSimulation::sub_simulate", "api/simulation/k_sim_main.cpp:539-711 CSimulation::simulate", "api/report/commands/b_model.cpp:382-502 B_ModelSimulateSaveNIters", "api/report/engine/b_rep_fns.cpp:1485-1690 RPF_SimNIter"]}
{"id": "C105", "title": "Import of variables from DIF files", "statement": "A DIF file that IODE exported can be imported again; the import of a table whose columns are periods gives each variable the values of its row, over the sample of the header. As coded: a file written by the DIF export is never imported (its COMMENT column is parsed as a period and the exception leaves the import); a table with two periods or more is refused by an assignment written for a comparison, and the null workspace is then used; only tables with a single period are read, exactly.", "quantifier": "all rule files, variables, samples, comments, periods, tables and rest of the file", "why_tests_cant": "The fault of a written file depends on its shape, not on its data: a test that imports one hand-made file says nothing about the files the export writes; the claim is about every exported database and every table with two periods or more.", "anchors": ["api/io/k_idif.cpp:109-212", "api/io/k_edif.cpp:69-133", "api/io/k_imain.cpp:77-198"]}
{"id": "C106", "title": "Parameters of a simulation set by a report", "statement": "$ModelSimulateParms sets each parameter to the value of its argument, refuses anything else and then changes nothing; the report functions give back what was set. As coded: fewer than six arguments are refused and change nothing; documented arguments are set exactly; the number of passes is kept from an earlier command when it is not given while the trace of Newton is reset; an unknown sort algorithm is silently accepted as Connex, and unknown starting values are silently accepted and leave the values as they are.", "quantifier": "all texts of the command, all parameters before it, all separators, all conversions of reals", "why_tests_cant": "The words accepted are unbounded in number: tests try the documented ones; that every other word is accepted in silence, and with which effect on the simulation, is a statement on all words.", "anchors": ["api/report/commands/b_model.cpp:132-165", "api/b_args.cpp:209-217", "api/report/engine/b_rep_fns.cpp:1515-1605"]}
{"id": "C107", "title": "Comments imported from an ASCII file", "statement": "Importing the comments of an ASCII file keeps every comment that the rules select: under the new name that the first matching rule gives, with its text.", "quantifier": "For all databases of comments with accepted names, all texts without control sequences, all rule files, all files that continue after the comments.", "why_tests_cant": "Names, texts, rules and what follows in the file are unbounded; the tests import one ASCII file with one file of rules and never a file with an unexpected element, so they cannot show that the rest of the file is dropped without an error.", "anchors": ["api/io/k_iasc.cpp:88-140", "api/io/k_imain.cpp:217-278", "api/io/k_rules.cpp"]}
{"id": "C108", "title": "The commands that import files", "statement": "The commands FileImportVar and FileImportCmt read the file with the format, rules, sample or language that are asked, write what they read in the output file, and return 0 exactly when this is done.", "quantifier": "For all arguments, all readers and all outcomes of writing the output file.", "why_tests_cant": "The arguments, and the ways in which reading and writing can fail, are unbounded; the tests call the import with two valid formats and an output file that can be written.", "anchors": ["api/report/commands/b_xode.cpp:34-112", "api/io/k_imain.cpp:293-418", "api/io/import.h:211-303"]}

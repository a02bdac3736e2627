# Formal model of IODE: design

Source under study: `/repo` (plan-be/iode, C++ API in `api/`, C helpers in `scr4/`).
Prover: Rocq / Coq 8.16.1, standard library only.

## Layout of `rocq/theories`

| prefix | content |
|---|---|
| `M_*.v` | model: total computable Gallina functions following the C++ function by function; each definition cites file and lines, and says what is simplified |
| `S_*.v` | specification: small independent definitions in which properties are stated (sets of periods, finite maps, expression trees, languages, permutations...) |
| `L_*.v` | lemmas (proof engineering only) |
| `T_*.v` | property theorems only: each is closed by `exact <lemma>`, followed by `Print Assumptions` and by a concrete `Example` meeting its hypotheses |

Conventions: C `int` is `Z` (no overflow modelled unless said), C++ exceptions are the explicit
outcome `Throw`, undefined behaviour (empty `back()`/`pop_back()`, out of bounds) is the explicit outcome `UB`;
both are different from every normal result. A property that is false of the faithful model is recorded by a
theorem `..._refuted : exists ...` with a concrete witness evaluated by the kernel, and the strongest true
weakening is proved beside it with suffix `_partial`.

Floating point: either exact IEEE-754 binary64 through `Coq.Floats.SpecFloat` (axiom free), or an
arbitrary record of operations `arith` (M_Exec; the theorem then holds for every interpretation, so also for the C one),
or exact arithmetic: rationals (M_Exact) or the real numbers of the standard library (M_Real; stdlib axioms are
then listed by `Print Assumptions`). Libm functions are uninterpreted fields of the record.

## What is modelled

| model | code | properties |
|---|---|---|
| `M_Time` | `api/time/period.h`, `api/time/sample.h` | C01-C08 |
| `M_Names` | names and keys: `api/utils/utils.h`, `api/objs/kdb.h` | C09, C10 |
| `M_Kdb` | `api/objs/kdb.h`: databases, subsets, global and standalone, as a heap of shared objects | C11-C18 |
| `M_Vars` | `api/objs/variables.h`, `api/objs/k_wsvar.cpp`: sample changes, modes of reading and writing, initialisation, merge | C19-C22, C45 |
| `M_Aggr` | `k_grep.cpp` [K_aggr], `k_wsvar.cpp` [KV_aggregate] | C44 |
| `M_Pack` | `api/objs/pack.cpp` | C23 |
| `M_Grep` | `scr4/s_stgrep.c` and the selection of names | C24 |
| `M_Lex`, `M_Compile` | `scr4/s_yread.c`, `s_ylex.c`, `s_ybase.c`, `api/lec/l_token.cpp`, `l_compile.cpp` | C25-C31, C46 |
| `M_Bytes` | `api/lec/k_lec.cpp` [CLEC::initialize] and the decoding constructors of `l_*.h` | C32, C33 |
| `M_Exec` | `api/lec/l_link.cpp`, `l_exec*.cpp` | C27-C34, C47 |
| `M_Invert` | `api/lec/l_eqs.cpp` | C35, C36 |
| `M_Ident` | `api/k_exec.cpp`, `api/report/commands/b_idt.cpp` [B_IdtExecuteIdts]; the merge of `k_wsvar.cpp` on one variable | C53-C58 |
| `M_Freq` | `api/report/commands/b_htol.cpp`, `b_ltoh.cpp`: changes of periodicity (cubic splines included) | C59-C65, C71, C72 |
| `M_Decimal` | printf `%.Plg` and `atof` of the C library (correct rounding; `C69_nearest` proves that the conversion gives a nearest double), on the doubles of `M_Double` | C69, C70 |
| `M_Ascii` | `api/ascii/k_cccmt.cpp`, `k_cclst.cpp`, `k_ccidt.cpp`, `k_ccscl.cpp`, `k_ccvar.cpp`, `api/utils/yy.cpp`, `scr4/s_yread.c`, `s_ylex.c`, `s_ybase.c`, `s_sttext.c`: databases in ASCII files | C66-C70 |
| `M_Codepage` | `api/utils/utils.h:91-159` on top of iconv with CP850 (the table of the 128 upper characters, checked against the iconv of the sandbox) | C73 |
| `M_Binary` | `api/objs/k_objfile.cpp` [save_binary, load_binary, load, save], `kdb.h` [clear]; 64-bit Linux layout of the structures | C74-C77 |
| `M_Objects` | the packs of comments, lists, identities, scalars, variables and equations: `k_cmt.cpp`, `k_lst.cpp`, `k_idt.cpp`, `k_scl.cpp`, `k_wsvar.cpp`, `k_eqs.cpp`, `equations.h` | C74-C77 |
| `M_Gsample` | `api/gsample/c_cc.cpp` (compiler of generalised samples) with the reader of `scr4/s_yread.c`, `s_ylex.c` | C78-C80 |
| `M_Calc` | `api/gsample/c_calc.cpp` (`COL_link`, `COL_calc`, `COL_resize`, `COL_exec`): the cells of a table on a generalised sample | C81, C82 |
| `M_Matrix` | `scr4/s_mainv.c`, `s_masol.c` and the elementary operations on matrices (`s_macalc.c`, `s_maxxp.c`, `s_maxpx.c`, ...) | C83 |
| `M_Estim` | `api/estimation/e_est.cpp`, `e_prep.cpp`, `e_tests.cpp` (without the log-likelihood): estimation of a block of equations and its statistics | C84, C85 |
| `M_Report` | `api/report/engine/*.cpp`: expansion of lines, the language of reports (macros, jumps, loops, procedures, error policy), sub-reports; the LEC formulas, the @functions on workspaces, the commands on workspaces and the files are parameters acting on an abstract world | C86-C89 |
| `M_Hodrick` | `api/lec/l_hodrick.cpp`, `l_exec_mtfn.cpp:661-714`, the names of `report/undoc/b_trend.cpp` | C90 |
| `M_Ras` | `report/commands/b_ras.cpp`, `b_data.cpp:198-227` | C91 |
| `M_Lists` | `objs/k_lst.cpp:190-367`, `scr4/s_ainit.c`, `scr4/s_stun.c`, `s_stinte.c`, `s_stdiff.c`, `report/commands/b_data.cpp:907-977, 1119-1175, 1325-1465` (lists) | C92, C93 |
| `M_Compare` | `objs/k_cmp.cpp`, `report/commands/b_data.cpp:1476-1640` (comparison with a file) | C94 |
| `M_Scan` | `objs/k_lst.cpp:28-197`, `report/commands/b_data.cpp:980-1100` (variables and scalars of formulas) | C95 |
| `M_AsciiEqs` | `api/ascii/k_cceqs.cpp`, with the constructor and the setters of `objs/equations.h` it calls (equations in ASCII files; acceptance of a formula by the compiler is a parameter) | C96 |
| `M_Import` | `api/io/k_rules.cpp`, `api/io/k_imain.cpp:77-198`, `api/io/k_iasc.cpp:42-86` (import of variables in ASCII; the reader of `k_irasc.cpp` is given by the values it reads) | C97 |
| `M_Step` | `api/estimation/e_step.cpp`, `api/report/undoc/b_step.cpp` (step-wise estimation; the estimation and the evaluation of the condition are parameters) | C98 |
| `M_Season` | `api/report/undoc/b_season.cpp` (test, adjustment, what is stored; the reading of the file, the samples and the extrapolation of values that are not numbers are left out) | C99 |
| `M_AsciiTbl` | `api/ascii/k_cctbl.cpp`, with the constructors and setters of `objs/tables.h` and `objs/k_tbl.cpp` it calls (tables in ASCII files; acceptance of a formula by the compiler is a parameter) | C100 |
| `M_Export` | `api/io/k_emain.cpp` (loops, `EXP_RuleExport`), `k_ecsv.cpp`, `k_edif.cpp` (CSV, rotated CSV and DIF export of variables; TSP and WKS are not modelled) | C101 |
| `M_EstSave` | `api/estimation/k_est.cpp`, the constructor and `estimate` of `estimation.h`, `B_EqsEstimateEqs` of `report/commands/b_est.cpp` (results left in the workspaces; the numerical estimation `E_est` is a parameter) | C102 |
| `M_UnitRoot` | `api/estimation/e_dftest.cpp`: `E_GetSmpl`, `E_UnitRoot_1`, `E_UnitRoot`, `E_SclToReal` (Dickey-Fuller test; the values of the tested expression and the numerical estimation are parameters, the printing is left out) | C103 |
| `M_SimDiag` | `api/simulation/k_sim_main.cpp`: the recording of KSIM_NITERS and KSIM_NORMS in `simulate`, `sub_simulate`; `api/report/commands/b_model.cpp`: `B_CreateEmptyVar`, `B_GetVarPtr`, `B_CreateVarFromVecOfDoubles`, `B_CreateVarFromVecOfInts`, `B_ModelSimulateSaveNIters`, `B_ModelSimulateSaveNorms`; `b_data.cpp`: `B_DataCalcVar` (the value of the formula is a parameter); `b_rep_fns.cpp`: `RPF_CalcPeriod`, `RPF_SimNIter`, `RPF_SimNorm` | C104 |
| `M_ImportDif` | api/io/k_idif.cpp, api/io/k_imain.cpp:77-198, import.h:51-60, yy.cpp:71-120 | Import of variables from DIF files: keywords, cells, header, rows. The reader is the one of M_Ascii, the rules those of M_Import. A null or unset pointer, or an unset number, is undefined when it is used. Messages and the file written at the end are left out. |
| `M_SimParms` | `api/report/commands/b_model.cpp`: `B_ModelSimulateParms`; `api/b_args.cpp`: `B_argpos`; `api/report/engine/b_rep_fns.cpp`: `RPF_SimMaxit`, `RPF_SimSortNbPasses`, `RPF_SimSortAlgo`, `RPF_SimInitValues` | The parameters of a simulation, as the report command sets them and the report functions read them. atof is a parameter; words hold ASCII characters; a number beyond 32 bits given to atoi is undefined. |
| `M_ImportCmt` | `api/io/k_iasc.cpp`: `ImportCommentsASCII::read_header`, `read_comment`; `api/io/k_imain.cpp`: `IMP_InterpretCmt` | The import of comments from an ASCII file, with the reader of `M_Ascii` and the rules of `M_Import`. The language (unused by this format), the messages and the file written at the end are left out; the other formats of comments are not modelled. |
| `M_ImportCmd` | `api/report/commands/b_xode.cpp`: `B_FileImportCmt`, `B_FileImportVar`; `api/io/k_imain.cpp`: `IMP_RuleImportCmt`, `IMP_RuleImportVar`, `IMP_RuleImport`; `api/io/import.h`: the tables of readers | The report commands that import files. The words of the argument are given; the readers of the formats and the writing of the binary file are parameters; the trace and the messages are left out. |
| `M_Order` | `api/simulation/k_sim_order.cpp`, `k_sim_scc.cpp:61-97` | C37-C39, C48 |
| `M_Simul` | `api/simulation/k_sim_main.cpp`, `api/lec/l_newton.cpp`, `l_secant.cpp` | C40, C41, C49-C52 |
| `M_Exo2endo` | `api/simulation/k_sim_exo2endo.cpp` | C42, C43 |
| `M_Double`, `M_Exact`, `M_Real` | instances of `arith`: binary64 (SpecFloat), rationals, real numbers | examples, refutations |

The file `properties.jsonl` gives the full statement of each property, `MANIFEST.json` the theorems and what they miss.

## What is not modelled

* Files, except the ASCII files of comments, lists, identities, scalars and variables (`M_Ascii`), of equations (`M_AsciiEqs`), the import of variables in ASCII (`M_Import`) and the binary files
  of all types but tables, in the present version of the format (`M_Binary`); the compression (gzip) is an arbitrary
  pair of functions, lossless where a theorem says so, and the bytes nobody sets are arbitrary; the commands that reports call (only the engine of reports is modelled), the printing of tables (their cells are modelled), graphs, the Dickey-Fuller test and the saving of the results of an estimation, the Python and GUI layers.
* Memory of the C++ program, except where a property is about it (packs, heap of objects, empty containers).
* Threads, signals, localisation (`LC_NUMERIC`), Windows code pages.
* Overflow of C `int` unless the comment of a definition says so.
* Bytes of a real constant of a formula (`real_bytes`: an arbitrary function), functions of libm, random numbers, the
  Hodrick-Prescott filter: fields of `arith`.
* In the estimation: the right hand side of an equation is an arbitrary function of the coefficients (external call), the
  left hand sides and the instruments are numbers; the logarithm of the likelihood is left out.
* In the simulation: the evaluation of an equation is an arbitrary function of the variables, the keyboard is an oracle,
  the value of the uninitialised `x2` of the secant method is a parameter.

## Trusted base

* Coq 8.16.1 kernel (and `vm_compute`).
* Faithfulness of the hand translation in `M_*.v`; each simplification is stated in the comment of the definition.
* No axiom is added by this development. `Print Assumptions` answers `Closed under the global context` for every
  theorem of the `T_*.v` files, with the exception of those about the real numbers:

| theorems | axioms (standard library) |
|---|---|
| `C35_reals`, `C82_mean_growth`, `C82_mean_growth_one_refuted`, `C35_value_ex`, `C35_power_refuted`, `C35_exp2_refuted`, `C35_acos_refuted`, `r_logn_exp`, `C85_equation`, `C85_bounds`, `C85_correlations`, `C85_rsquare_nonneg_partial`, `C85_standard_errors_partial`, `C85_tests`, `C85_correlations_of_coefficients`, `two_found` and the lemmas of that example, `C90_trend_partial`, `C90_log_trend_partial`, `C90_refused`, `C90_straight`, `C90_sums`, `C90_combination`, `C90_scale`, `C90_formula`, `C90_every_lambda_refuted`, `C90_three_values_refuted`, `ones_solution`, `formula_case`, `C91_sums`, `C91_form`, `C91_met`, `C91_unique`, `C91_converges`, `C91_zero_rows`, `C91_command`, `row_sum_eq`, `col_sum_eq`, `converges_case`, `C94_value`, `C94_variables`, `C94_threshold`, `C94_symmetric_refuted`, `C99_level`, `C99_detected`, `C99_factors`, `C99_units` | `ClassicalDedekindReals.sig_forall_dec`, `ClassicalDedekindReals.sig_not_dec`, `FunctionalExtensionality.functional_extensionality_dep`, `Classical_Prop.classic` |
| `r_num_pos`, `r_small`, `small_1` | `ClassicalDedekindReals.sig_forall_dec`, `FunctionalExtensionality.functional_extensionality_dep` |
| `window_values` | `ClassicalDedekindReals.sig_forall_dec` |

* `coqchk` also sees, in the context of the loaded libraries, the opaque parameters of `Coq.ssr.ssrunder` (`Under_rel`,
  `Under_rel_from_rel`, `Under_relE`, `Over_rel`, `over_rel`, `over_rel_done`, `under_rel_done`); no theorem uses them.

## How to read seeded/LOG.jsonl

In the rounds run by script (ids `bN-NN`), `lemmas_failed` is what the prover rejected first in each file. `theorems_failed` lists the
theorems that depend on these lemmas, found from the names used in the sources; they could not be checked, but were not each seen to fail.

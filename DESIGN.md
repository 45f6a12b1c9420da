# Formal model of PiContFracs

Source: `/repo` (python; read as text, never executed, unchanged). Model and proofs: `rocq/theories` (Coq 8.16.1 and
its standard library). Properties: `properties.jsonl`; status: `MANIFEST.json`; log of deliberately wrong programs that
the theorems were tried against: `seeded/LOG.jsonl`.

## How the model is organised

* `PyBase.v`, `Rnd.v`: the python and mpmath primitives that the code uses (exceptions as values, `range`, slicing,
  insertion-ordered dictionaries, floor division, rounding of a rational to `p` bits, to nearest with ties to even).
* `X_Model.v`: one file per area of the code. Each definition mirrors a python function branch by branch and cites file
  and lines; simplifications are stated in the comment of the definition. Methods that change an object are functions
  `state -> args -> state * res out`, so the state that an exception leaves behind is visible. Loops that may not end
  take fuel and return an `option`. Model files contain no proofs.
* `Spec_X.v`: small specifications, independent of the helpers of the model.
* `X_Proofs.v` and the other files: lemmas.
* `Properties_X.v`: the theorems named in `MANIFEST.json` (`Cnn_...`), for each property at least one `Example`
  (`Cnn_ex`) in which the hypotheses are met by concrete, non-trivial data, and `Print Assumptions` for each theorem.
* `Replay_Tests.v`: the parametrized tests of the repository evaluated on the model, as a check of the transcription. Where the
  code does not do what its own test expects (negative integer roots), the example says so.

A theorem whose name ends in `_refuted` shows that something that the code, a comment or a docstring promises is false of
the program: it gives (or, if stated for all inputs of a class, characterises) the failing inputs. Theorems in
`_partial` leave out part of the claim; their comment says what.

### Numbers

* python `int` = `Z`; `%`, `//`, `divmod` = `Z.modulo`, `Z.div` (both floor).
* `mpf` = a rational (`Q`), plus a NaN where the code can meet one. Correctly rounded operations are `rnd p (exact
  result)`, for every precision `p`. The exponent range of mpf is unbounded, so there is no overflow.
* python `float` = `rnd 53` with unbounded exponents; theorems that involve floats (integer roots, splitting of jobs,
  equivalence of ULCDs, `dps_to_prec`) have hypotheses on the size of the operands or state the range where they hold.
  Floats in printing are not modelled.
* The numbers in `dec_cos` and `dec_sin` (`Trig_Model.v`) are rationals with any rounding to the nearest number with the
  digits of the context, in any base (10 for python's Decimal, without its limits on exponents).
* texts = lists of 8-bit characters.

### What is a parameter

These are function arguments (section variables or fields of a record), and the theorems quantify over them, sometimes
with a stated hypothesis: `to_eng_string`; whether `is_normal` exists; the gcd of sympy (its laws are in
`Spec_Rational.v`; sympy's division is modelled); `numpy.roots`; scipy's binomials; float square roots and `mpf` square
roots; the iteration order of python sets; `math.log` and `scipy.stats.linregress` in the
estimation of the approach; in the search and in whole runs, the whole estimation and the number of iterations that it
asks for; clock readings; directory listings; the moment of a keyboard interrupt; the
outcome of compiling the LaTeX source; the texts of the parameters of left-hand sides; the tails of the literals of pi
and e.

## Trusted base

* Coq's kernel (8.16.1), including its virtual machine (`vm_compute` is used in examples and in a few finite checks);
  no plugins beyond those of the distribution.
* What `Print Assumptions` lists (see below): nothing, except for the theorems about limits (C105-C108, C110-C113, C125-C129, C131, C133, C134), which use the real
  numbers of the standard library and so its axioms `sig_not_dec`, `sig_forall_dec`, `functional_extensionality_dep` and
  `classic`.
* That the transcription is faithful (each definition cites its source lines), and that python, mpmath, sympy, numpy,
  configparser and json behave as the primitives of the model say.

## Modelled

Generated from the citations in the comments of the model files (gaps of one line closed).

| source | lines cited | model files |
|---|---|---|
| `basic_representation_types.py` | 13-78, 84-108, 120-157 | `ContFrac_Model.v`, `Enum_Model.v` |
| `config.ini` | 1-78 | `IniFiles_Model.v`, `Shipped_Model.v` |
| `config_apery.ini` | 1-84 | `IniFiles_Model.v`, `Shipped_Model.v` |
| `config_apery_extend_hashtable.ini` | 1-85 | `IniFiles_Model.v`, `Shipped_Model.v` |
| `config_e_search_-4_to_5.ini` | 1-85 | `IniFiles_Model.v`, `Shipped_Model.v` |
| `config_e_search_inter_cubic.ini` | 1-88 | `IniFiles_Model.v`, `Shipped_Model.v` |
| `config_e_search_inter_lin.ini` | 1-85 | `IniFiles_Model.v`, `Shipped_Model.v` |
| `config_pi_-4_to_5.ini` | 1-87 | `IniFiles_Model.v`, `Shipped_Model.v` |
| `config_pi_interlaced_cubic.ini` | 1-89 | `IniFiles_Model.v`, `Shipped_Model.v` |
| `config_pi_interlaced_linear.ini` | 1-84 | `IniFiles_Model.v`, `Shipped_Model.v` |
| `config_pi_search_-4_to_5.ini` | 1-85 | `IniFiles_Model.v`, `Shipped_Model.v` |
| `config_pi_search_inter_cubic.ini` | 1-85 | `IniFiles_Model.v`, `Shipped_Model.v` |
| `config_pi_search_inter_lin.ini` | 1-85 | `IniFiles_Model.v`, `Shipped_Model.v` |
| `configfile.py` | 17-198, 206-229 | `Config_Model.v`, `Ini_Model.v`, `Main_Model.v`, `Scripts_Model.v` |
| `cont_fracs.py` | 20-141, 147-154, 161-187, 192-375, 378-398, 401-411, 414-428 | `Classify_Model.v`, `ContFrac_Model.v`, `Errors_Model.v` |
| `decimal_hashtable.py` | 6-7, 13-98 | `Hashtable_Model.v`, `Main_Model.v`, `Tools_Model.v` |
| `distribute_run.py` | 13-77 | `Config_Model.v`, `Dist_Model.v`, `Ini_Model.v`, `Scripts_Model.v` |
| `enum_params.py` | 37-120, 123-241, 250-260, 263-389, 395-508 | `Csv_Model.v`, `Hashtable_Model.v`, `Legacy_Model.v`, `MITM_Model.v`, `Main_Model.v`, `Results_Model.v`, `ULCD_Model.v` |
| `enum_poly_params.py` | 18-36, 41-42, 45, 50-81, 91-189, 194-195, 198, 202-224, 229-230, 233-273, 280-300 | `Config_Model.v`, `Enum_Model.v`, `MITM_Model.v` |
| `fix_hashtable_filter_init_b_root.py` | 12-35 | `Hashtable_Model.v`, `Tools_Model.v` |
| `gen_consts.py` | 10-59, 62, 65-67, 70-76, 79-118 | `Consts_Model.v`, `Main_Model.v` |
| `gen_errors_for_nips.py` | 8-33, 38, 44-45, 53, 69, 96, 100-112, 118-128, 131-145 | `Errors_Model.v` |
| `join_hashtables.py` | 6-19 | `Hashtable_Model.v`, `Scripts_Model.v` |
| `latex.py` | 5-17, 20-34 | `Main_Model.v`, `Results_Model.v` |
| `lhs_evaluators.py` | 15-17, 20-21, 26-43, 92-95, 98-193, 198-247, 252-253, 256-460, 509-557, 560-582 | `Config_Model.v`, `Hashtable_Model.v`, `Legacy_Model.v`, `MITM_Model.v`, `Main_Model.v`, `Rational_Model.v`, `Results_Model.v`, `ULCD_Model.v` |
| `main.py` | 20, 39-186, 189-197 | `Config_Model.v`, `Hashtable_Model.v`, `Ini_Model.v`, `MITM_Model.v`, `Main_Model.v`, `Shipped_Model.v` |
| `postprocfuncs.py` | 4-70, 75-98, 109-111, 117-149, 152 | `Results_Model.v`, `Trig_Model.v` |
| `process_and_compare.py` | 24-84, 130-167, 170-172, 175-185, 246-266, 269-293, 297-410 | `Csv_Model.v`, `Errors_Model.v`, `Legacy_Model.v` |
| `results/OldResults/results.csv` | 1-14 | `OldResults_Model.v`, `OldTexts_Model.v` |
| `results/OldResults/results_0005_120418.csv` | 1-16 | `OldResults_Model.v`, `OldTexts_Model.v` |
| `results/OldResults/results_0117_050418.csv` | 1-3 | `OldResults_Model.v`, `OldTexts_Model.v` |
| `results/OldResults/results_0301_080418.csv` | 1-6 | `OldResults_Model.v`, `OldTexts_Model.v` |
| `results/OldResults/results_1114_070418.csv` | 1-3 | `OldResults_Model.v`, `OldTexts_Model.v` |
| `results/OldResults/results_1205_230418.csv` | 1-13 | `OldResults_Model.v`, `OldTexts_Model.v` |
| `results/OldResults/results_1208_230418.csv` | 1-13 | `OldResults_Model.v`, `OldTexts_Model.v` |
| `results/OldResults/results_1303_230418.csv` | 1-13 | `OldResults_Model.v`, `OldTexts_Model.v` |
| `results/OldResults/results_1309_230418.csv` | 1-13 | `OldResults_Model.v`, `OldTexts_Model.v` |
| `results/OldResults/results_1334_230418.csv` | 1-13 | `OldResults_Model.v`, `OldTexts_Model.v` |
| `results/OldResults/results_1336_230418.csv` | 1-13 | `OldResults_Model.v`, `OldTexts_Model.v` |
| `results/OldResults/results_1414_070418.csv` | 1-3 | `OldResults_Model.v`, `OldTexts_Model.v` |
| `results/OldResults/results_1517_050418.csv` | 1-2 | `OldResults_Model.v`, `OldTexts_Model.v` |
| `results/OldResults/results_1718_050418.csv` | 1-2 | `OldResults_Model.v`, `OldTexts_Model.v` |
| `results/OldResults/results_2115_070418.csv` | 1-2 | `OldResults_Model.v`, `OldTexts_Model.v` |
| `results/OldResults/results_2218_070418.csv` | 1-2 | `OldResults_Model.v`, `OldTexts_Model.v` |
| `results/OldResults/results_2819_070418.csv` | 1-2 | `OldResults_Model.v`, `OldTexts_Model.v` |
| `results/OldResults/results_3018_050418.csv` | 1-17 | `OldResults_Model.v`, `OldTexts_Model.v` |
| `results/OldResults/results_3113_100418.csv` | 1-2 | `OldResults_Model.v`, `OldTexts_Model.v` |
| `results/OldResults/results_3122_070418.csv` | 1-2 | `OldResults_Model.v`, `OldTexts_Model.v` |
| `results/OldResults/results_3519_070418.csv` | 1-2 | `OldResults_Model.v`, `OldTexts_Model.v` |
| `results/OldResults/results_3719_070418.csv` | 1-2 | `OldResults_Model.v`, `OldTexts_Model.v` |
| `results/OldResults/results_3819_070418.csv` | 1-2 | `OldResults_Model.v`, `OldTexts_Model.v` |
| `results/OldResults/results_4019_070418.csv` | 1-2 | `OldResults_Model.v`, `OldTexts_Model.v` |
| `results/OldResults/results_4200_080418.csv` | 1-2 | `OldResults_Model.v`, `OldTexts_Model.v` |
| `results/OldResults/results_4521_050418.csv` | 1-18 | `OldResults_Model.v`, `OldTexts_Model.v` |
| `results/OldResults/results_4614_070418.csv` | 1-15 | `OldResults_Model.v`, `OldTexts_Model.v` |
| `results/OldResults/results_5118_050418.csv` | 1-18 | `OldResults_Model.v`, `OldTexts_Model.v` |
| `results/OldResults/results_5200_080418.csv` | 1-14 | `OldResults_Model.v`, `OldTexts_Model.v` |
| `results/OldResults/results_5300_080418.csv` | 1-14 | `OldResults_Model.v`, `OldTexts_Model.v` |
| `results/OldResults/results_5517_070418.csv` | 1-2 | `OldResults_Model.v`, `OldTexts_Model.v` |
| `results/OldResults/results_5715_070418.csv` | 1-2 | `OldResults_Model.v`, `OldTexts_Model.v` |
| `run_distributed_configs.py` | 4-7 | `Scripts_Model.v` |
| `tests/fixtures/apery_sanitycheck_config.ini` | 1-79 | `Fixtures_Model.v`, `IniFiles_Model.v` |
| `tests/fixtures/apery_sanitycheck_with_big_lhs_config.ini` | 1-76 | `Fixtures_Model.v`, `IniFiles_Model.v` |
| `tests/fixtures/gen_hashtable_benchmark.ini` | 1-80 | `Fixtures_Model.v`, `IniFiles_Model.v` |
| `tests/fixtures/pi_sanitycheck_config.ini` | 1-72 | `Fixtures_Model.v`, `IniFiles_Model.v` |
| `tests/test_cont_fracs.py` | 13-18 | `TestFracs_Model.v` |
| `utils.py` | 16-49, 55-75, 78-169, 172-176 | `Progress_Model.v`, `Rational_Model.v`, `Utils_Model.v` |

## Not modelled

Lines of the python files that are not cited in the table above. In particular:

* printing, plotting, running times, memory, concurrent processes;
* the regressions and the plots of `gen_errors_for_nips.py` and `process_and_compare.py` (the points that go into them are
  modelled); the meaning of the formula that `load_cont_fracs` hands to `eval`;
* `ContFrac.is_result_valid` (it is never called; it refers to `mpmath`, which its module does not import);
* the byte formats of pickle and dill (the `__reduce__`/`__setstate__` protocol of the table is modelled), the
  limit on the length of csv fields (the csv syntax is in `Csv_Model.v`), the LaTeX document around the equations;
* in the theorems about runs, percent signs in settings: there a file is the list of its settings (`Config_Model.v`). The
  syntax of ini files is modelled in `Ini_Model.v`, and C142-C144 and C148 say when the two agree; non-ASCII characters are left out;
* JSON floats, objects and escapes in settings;
  file names with characters special in regular expressions other than the dot; settings of an unexpected type that a
  run reaches (`None` in `Main_Model.v`);
* overflow, underflow and subnormal floats, and the exponent limits of mpf;
* sharing of list objects between joined tables; failures while a table is being written;
* keyboard interrupts other than between the clicks or steps of the last stage of refinement.

Each simplification is also stated in the comment of the definition concerned.

## Print Assumptions

Every file `Properties_*.v` ends with `Print Assumptions` for each of its theorems. Read from Coq's output: of 463 theorems, 433 answer "Closed under the global context" (no axiom).
The others:

| theorem | assumptions |
|---|---|
| `C105_super_exponential` | `ClassicalDedekindReals.sig_not_dec`, `ClassicalDedekindReals.sig_forall_dec`, `FunctionalExtensionality.functional_extensionality_dep`, `Classical_Prop.classic` |
| `C106_exponential` | `ClassicalDedekindReals.sig_not_dec`, `ClassicalDedekindReals.sig_forall_dec`, `FunctionalExtensionality.functional_extensionality_dep`, `Classical_Prop.classic` |
| `C107_exponential` | `ClassicalDedekindReals.sig_not_dec`, `ClassicalDedekindReals.sig_forall_dec`, `FunctionalExtensionality.functional_extensionality_dep`, `Classical_Prop.classic` |
| `C108_polynomial` | `ClassicalDedekindReals.sig_not_dec`, `ClassicalDedekindReals.sig_forall_dec`, `FunctionalExtensionality.functional_extensionality_dep`, `Classical_Prop.classic` |
| `C110_pi` | `ClassicalDedekindReals.sig_not_dec`, `ClassicalDedekindReals.sig_forall_dec`, `FunctionalExtensionality.functional_extensionality_dep`, `Classical_Prop.classic` |
| `C110_e` | `ClassicalDedekindReals.sig_not_dec`, `ClassicalDedekindReals.sig_forall_dec`, `FunctionalExtensionality.functional_extensionality_dep` |
| `C110_more_digits_refuted` | `ClassicalDedekindReals.sig_not_dec`, `ClassicalDedekindReals.sig_forall_dec`, `FunctionalExtensionality.functional_extensionality_dep`, `Classical_Prop.classic` |
| `C111_golden` | `ClassicalDedekindReals.sig_not_dec`, `ClassicalDedekindReals.sig_forall_dec`, `FunctionalExtensionality.functional_extensionality_dep` |
| `C111_percolation` | `ClassicalDedekindReals.sig_not_dec`, `ClassicalDedekindReals.sig_forall_dec`, `FunctionalExtensionality.functional_extensionality_dep` |
| `C111_default_precision_refuted` | `ClassicalDedekindReals.sig_not_dec`, `ClassicalDedekindReals.sig_forall_dec`, `FunctionalExtensionality.functional_extensionality_dep` |
| `C112_zeta` | `ClassicalDedekindReals.sig_not_dec`, `ClassicalDedekindReals.sig_forall_dec`, `FunctionalExtensionality.functional_extensionality_dep` |
| `C112_apery` | `ClassicalDedekindReals.sig_not_dec`, `ClassicalDedekindReals.sig_forall_dec`, `FunctionalExtensionality.functional_extensionality_dep` |
| `C112_default_precision_refuted` | `ClassicalDedekindReals.sig_not_dec`, `ClassicalDedekindReals.sig_forall_dec`, `FunctionalExtensionality.functional_extensionality_dep` |
| `C113_points` | `ClassicalDedekindReals.sig_not_dec`, `ClassicalDedekindReals.sig_forall_dec`, `FunctionalExtensionality.functional_extensionality_dep`, `Classical_Prop.classic` |
| `C113_larger_window` | `ClassicalDedekindReals.sig_not_dec`, `ClassicalDedekindReals.sig_forall_dec`, `FunctionalExtensionality.functional_extensionality_dep`, `Classical_Prop.classic` |
| `C125_brouncker` | `ClassicalDedekindReals.sig_not_dec`, `ClassicalDedekindReals.sig_forall_dec`, `FunctionalExtensionality.functional_extensionality_dep`, `Classical_Prop.classic` |
| `C125_threshold` | `ClassicalDedekindReals.sig_not_dec`, `ClassicalDedekindReals.sig_forall_dec`, `FunctionalExtensionality.functional_extensionality_dep`, `Classical_Prop.classic` |
| `C126_factorial` | `ClassicalDedekindReals.sig_not_dec`, `ClassicalDedekindReals.sig_forall_dec`, `FunctionalExtensionality.functional_extensionality_dep`, `Classical_Prop.classic` |
| `C127_golden` | `ClassicalDedekindReals.sig_not_dec`, `ClassicalDedekindReals.sig_forall_dec`, `FunctionalExtensionality.functional_extensionality_dep`, `Classical_Prop.classic` |
| `C128_interlaced` | `ClassicalDedekindReals.sig_not_dec`, `ClassicalDedekindReals.sig_forall_dec`, `FunctionalExtensionality.functional_extensionality_dep`, `Classical_Prop.classic` |
| `C129_test_cases` | `ClassicalDedekindReals.sig_not_dec`, `ClassicalDedekindReals.sig_forall_dec`, `FunctionalExtensionality.functional_extensionality_dep`, `Classical_Prop.classic` |
| `C131_apery_limit` | `ClassicalDedekindReals.sig_forall_dec`, `FunctionalExtensionality.functional_extensionality_dep` |
| `C131_apery_rate` | `ClassicalDedekindReals.sig_forall_dec`, `FunctionalExtensionality.functional_extensionality_dep` |
| `C133_cos` | `ClassicalDedekindReals.sig_not_dec`, `ClassicalDedekindReals.sig_forall_dec`, `FunctionalExtensionality.functional_extensionality_dep` |
| `C133_sin` | `ClassicalDedekindReals.sig_not_dec`, `ClassicalDedekindReals.sig_forall_dec`, `FunctionalExtensionality.functional_extensionality_dep` |
| `C133_small` | `ClassicalDedekindReals.sig_not_dec`, `ClassicalDedekindReals.sig_forall_dec`, `FunctionalExtensionality.functional_extensionality_dep`, `Classical_Prop.classic` |
| `C134_true` | `ClassicalDedekindReals.sig_not_dec`, `ClassicalDedekindReals.sig_forall_dec`, `FunctionalExtensionality.functional_extensionality_dep`, `Classical_Prop.classic` |
| `C134_oldest_refuted` | `ClassicalDedekindReals.sig_not_dec`, `ClassicalDedekindReals.sig_forall_dec`, `FunctionalExtensionality.functional_extensionality_dep`, `Classical_Prop.classic` |
| `C134_computes` | `ClassicalDedekindReals.sig_not_dec`, `ClassicalDedekindReals.sig_forall_dec`, `FunctionalExtensionality.functional_extensionality_dep`, `Classical_Prop.classic` |
| `C147_stored` | `ClassicalDedekindReals.sig_not_dec`, `ClassicalDedekindReals.sig_forall_dec`, `FunctionalExtensionality.functional_extensionality_dep`, `Classical_Prop.classic` |

## Properties and theorems

One line per property of `properties.jsonl`; the statement and the quantifier are there, the theorem texts in the file named here.

| id | property | file | theorems |
|---|---|---|---|
| C01 | gcd is the greatest common divisor and terminates | `Properties_Utils.v` | `C01_gcd`, `C01_doc_sign_when_b_smaller`, `C01_doc_sign_refuted` |
| C02 | polynomial substitution | `Properties_Utils.v` | `C02_subs_in_polynom` |
| C03 | stop-watch measures consecutive gaps | `Properties_Utils.v` | `C03_stopwatch_outputs`, `C03_stopwatch_sum`, `C03_total_before_start` |
| C04 | grouper partitions an iterable into fixed-length chunks | `Properties_Utils.v` | `C04_grouper`, `C04_grouper_nonpositive` |
| C05 | seconds split into days, hours, minutes and seconds | `Properties_Utils.v` | `C05_dhms` |
| C06 | generated convergent is the nested fraction | `Properties_ContFrac.v` | `C06_convergent` |
| C07 | iterations can be added in any split | `Properties_ContFrac.v` | `C07_split` |
| C08 | a zero numerator is reported exactly, and atomically | `Properties_ContFrac.v` | `C08_zero_b_exact`, `C08_only_zero_b`, `C08_atomic` |
| C09 | determinant identity of consecutive convergents | `Properties_ContFrac.v` | `C09_determinant`, `C09_nan_iff` |
| C10 | get_p_q returns the previous convergent | `Properties_ContFrac.v` | `C10_get_p_q_is_previous`, `C10_get_p_q_initial`, `C10_docstring_refuted` |
| C11 | logging does not change the result | `Properties_ContFrac.v` | `C11_logging_same`, `C11_zero_iterations_differ` |
| C12 | iteration counter and fraction index stay in step | `Properties_ContFrac.v` | `C12_counter_in_step`, `C12_counter_in_step_after_exceptions`, `C12_logging_exception_refuted`, `C12_negative_count`, `C12_default_estimate_out_of_step` |
| C13 | negating the partial denominators negates the value | `Properties_ContFrac.v` | `C13_eval_sign`, `C13_contfrac_sign` |
| C14 | eval_contfrac computes the nested fraction | `Properties_ContFrac.v` | `C14_eval_contfrac`, `C14_default_numerators`, `C14_length_error` |
| C15 | eval_contfrac for equal lengths | `Properties_ContFrac.v` | `C15_equal_lengths`, `C15_documented_formula_refuted` |
| C16 | the two continued-fraction engines agree | `Properties_ContFrac.v` | `C16_eval_dec`, `C16_engines_agree`, `C16_depth_nonpositive` |
| C17 | identical interlaced polynomials may be squeezed | `Properties_ContFrac.v` | `C17_squeeze_eval`, `C17_squeeze_a`, `C17_squeeze_b`, `C17_squeeze_contfrac` |
| C18 | is_convergence_fast is history independent and resets the object | `Properties_ContFrac.v` | `C18_history_independent`, `C18_resets` |
| C19 | compare_result | `Properties_ContFrac.v` | `C19_compare`, `C19_value_error` |
| C20 | requested accuracy never increases the work | `Properties_ContFrac.v` | `C20_at_most_n`, `C20_exactly_n`, `C20_pinned_backend` |
| C21 | polynomial enumeration is sound and complete | `Properties_Enum.v` | `C21_enumeration` |
| C22 | polynomial enumeration never repeats | `Properties_Enum.v` | `C22_no_repeats` |
| C23 | estimated enumeration length is an over-estimate | `Properties_Enum.v` | `C23_length_normal`, `C23_length_indexed`, `C23_length_sparse`, `C23_exact_without_filters`, `C23_interlaced_sparse_refuted` |
| C24 | indexed polynomials are expanded correctly | `Properties_Enum.v` | `C24_indexed`, `C24_enumeration` |
| C25 | sparse polynomials: every placement exactly once | `Properties_Enum.v` | `C25_sparse`, `C25_count`, `C25_enumeration` |
| C26 | polynomial degree | `Properties_Enum.v` | `C26_degree` |
| C27 | factoring out powers of x | `Properties_Enum.v` | `C27_factor_out`, `C27_split_exists`, `C27_documented`, `C27_docstring_refuted` |
| C28 | integer-root filter on linear numerators | `Properties_Enum.v` | `C28_linear`, `C28_large_refuted`, `C28_constants` |
| C29 | integer-root filter on quadratic numerators | `Properties_Enum.v` | `C29_quadratic`, `C29_misses_refuted`, `C29_rejects_refuted`, `C29_inner_zero` |
| C30 | fixed-accuracy table behaves like a map on truncated keys | `Properties_Hashtable.v` | `C30_fixed_accuracy_map` |
| C31 | a stored value can be read back at every accuracy history | `Properties_Hashtable.v` | `C31_set_get`, `C31_set_fails_only_on_key`, `C31_contains_iff_get`, `C31_other_keys` |
| C32 | accuracy updates can merge and lose entries | `Properties_Hashtable.v` | `C32_set_deletes_old_prefixes`, `C32_earliest_prefix_wins`, `C32_refinement_loses_entries` |
| C33 | del does not delete | `Properties_Hashtable.v` | `C33_del_exact`, `C33_del_never_deletes`, `C33_del_deletes_refuted` |
| C34 | pickling round-trip | `Properties_Hashtable.v` | `C34_pickle_roundtrip` |
| C35 | joining tables keeps every entry | `Properties_Hashtable.v` | `C35_append_refuses`, `C35_append_union`, `C35_join_concat`, `C35_join_empty` |
| C36 | entries made by the builder are invisible to look-ups | `Properties_MITM.v` | `C36_no_clicks`, `C36_invisible`, `C36_pinned` |
| C37 | table look-up and comparison use the same digits | `Properties_Hashtable.v` | `C37_key_is_comparison`, `C37_plain_decimals_close`, `C37_small_values_refuted`, `C37_equal_values_refuted`, `C37_pinned_backend_raises` |
| C38 | ULCD value follows the parameters | `Properties_ULCD.v` | `C38_value`, `C38_value_mpf`, `C38_exact`, `C38_flip`, `C38_add_int`, `C38_after_exception_refuted` |
| C39 | ULCD enumeration is exact | `Properties_ULCD.v` | `C39_ranges`, `C39_enum`, `C39_consumer`, `C39_zero_constant` |
| C40 | skipping \|c\| >= \|d\| loses nothing up to an integer | `Properties_ULCD.v` | `C40_representative`, `C40_representative_enumerated` |
| C41 | ULCD equivalence is sound | `Properties_ULCD.v` | `C41_sound`, `C41_large_refuted` |
| C42 | copied left-hand sides are snapshots | `Properties_ULCD.v` | `C42_snapshots` |
| C43 | rational LHS value follows the parameters | `Properties_Rational.v` | `C43_value`, `C43_exact`, `C43_flip`, `C43_add_int`, `C43_canonicalize`, `C43_canonicalize_nan_refuted`, `C43_failed_call`, `C43_after_exception_refuted` |
| C44 | canonical form preserves the function and is idempotent | `Properties_Rational.v` | `C44_function`, `C44_total`, `C44_coprime`, `C44_idempotent`, `C44_zero_denominator` |
| C45 | degenerate means constant | `Properties_Rational.v` | `C45_degenerate_iff` |
| C46 | rational enumeration is exact | `Properties_Rational.v` | `C46_enum`, `C46_value_exact` |
| C47 | rational equivalence ignores the denominator | `Properties_Rational.v` | `C47_sound_same_denominator`, `C47_denominator_refuted`, `C47_same_function_not_recognised_refuted`, `C47_inverse_refuted` |
| C48 | table building records exactly the enumerated values | `Properties_MITM.v` | `C48_tables`, `C48_build`, `C48_pairs`, `C48_pairs_indexed`, `C48_pairs_sparse`, `C48_succeeds`, `C48_key` |
| C49 | re-building is idempotent | `Properties_MITM.v` | `C49_again`, `C49_normal`, `C49_validate` |
| C50 | clicks are exactly the table hits | `Properties_MITM2.v`, `Properties_Target.v` | `C50_clicks`, `C50_exception`, `C50_ulcd`, `C50_ulcd_left_out`, `C50_rational_left_out` |
| C51 | refinement keeps only matching clicks | `Properties_MITM2.v` | `C51_refine`, `C51_exclusive`, `C51_exception` |
| C52 | integer adjustment during refinement | `Properties_MITM2.v` | `C52_ulcd`, `C52_rational`, `C52_near`, `C52_close_refuted`, `C52_not_repaired` |
| C53 | duplicate filtering keeps one representative | `Properties_MITM2.v` | `C53_ulcd`, `C53_ulcd_represented`, `C53_rational`, `C53_exception` |
| C54 | filtering by convergence type | `Properties_MITM2.v` | `C54_filter`, `C54_arguments`, `C54_exception` |
| C55 | integer-root filter on results | `Properties_MITM2.v` | `C55_filter`, `C55_which`, `C55_integers`, `C55_above_half`, `C55_only_integers_refuted` |
| C56 | splitting a job partitions the search space | `Properties_Dist.v` | `C56_split`, `C56_nonempty`, `C56_empty_interlace`, `C56_large_refuted` |
| C57 | distributed runs find the same entries | `Properties_Dist.v` | `C57_same_entries`, `C57_same_lists`, `C57_sparse_lists_refuted` |
| C58 | table file versions | `Properties_Config.v` | `C58_use`, `C58_generate_new`, `C58_generate_first`, `C58_generate_overwrites_refuted`, `C58_backup_used_refuted`, `C58_dot_refuted` |
| C59 | post-processing selection survives save and load | `Properties_Config.v` | `C59_indices_survive`, `C59_bad_index` |
| C60 | inverse pairs | `Properties_Results.v` | `C60_pairs`, `C60_inverse`, `C60_values` |
| C61 | LaTeX continued fraction denotes the fraction | `Properties_Results.v` | `C61_text`, `C61_total`, `C61_denotes`, `C61_injective` |
| C62 | LaTeX equation of a ULCD left-hand side | `Properties_ULCD.v` | `C62_latex` |
| C63 | cleaning a table of integer-root numerators | `Properties_Tools.v` | `C63_clean`, `C63_input_kept`, `C63_name`, `C63_no_settings`, `C63_numbers_refuted`, `C63_clean_linear`, `C63_quadratic_refuted`, `C63_old_keys_refuted` |
| C64 | indexed constants cannot be generated | `Properties_Tools.v` | `C64_index_taken_for_precision`, `C64_needs_two`, `C64_two_work`, `C64_exceptions` |
| C65 | reinitialize takes effect at the next gen_iterations | `Properties_ContFrac.v` | `C65_reinitialize_then_gen`, `C65_add_continues_old`, `C65_add_after_reinitialize_refuted` |
| C66 | convergence estimation terminates | `Properties_ContFrac.v` | `C66_estimate_terminates` |
| C67 | enumerated fractions do not depend on what was enumerated before | `Properties_Enum.v` | `C67_fractions`, `C67_value` |
| C68 | ULCD equivalence is not symmetric | `Properties_ULCD.v` | `C68_multiple_first`, `C68_symmetry_refuted` |
| C69 | the ULCD degeneracy flag rejects non-constant expressions | `Properties_ULCD.v` | `C69_never_constant`, `C69_degenerate_iff`, `C69_degenerate_refuted` |
| C70 | what the fast-convergence test decides | `Properties_ContFrac.v` | `C70_fast_means_shrinking`, `C70_small_step_accepted` |
| C71 | rational left-hand sides need Decimal constants | `Properties_Rational.v` | `C71_mpf_constant`, `C71_mpf_enum` |
| C72 | copies of rational left-hand sides | `Properties_Rational.v` | `C72_copy`, `C72_copy_after_reinit_refuted` |
| C73 | LaTeX of a rational left-hand side | `Properties_Rational.v` | `C73_latex`, `C73_degree10_refuted`, `C73_index_error` |
| C74 | changing the settings of a search object | `Properties_MITM.v` | `C74_settings`, `C74_enumerator_refuted`, `C74_sizes_refuted` |
| C75 | an exception of a post-processing function can be masked | `Properties_MITM.v` | `C75_masked`, `C75_seen` |
| C76 | tables with less than 8 digits cannot be extended | `Properties_MITM.v` | `C76_cut`, `C76_whole` |
| C77 | the processing stages after the search never invent results | `Properties_MITM2.v` | `C77_sublist`, `C77_values` |
| C78 | the exponential-convergence filter | `Properties_MITM2.v` | `C78_filter`, `C78_meaning`, `C78_exception`, `C78_printing` |
| C79 | which post-processing functions work | `Properties_Results.v` | `C79_trig`, `C79_mpf`, `C79_build` |
| C80 | results as equations | `Properties_Results.v` | `C80_equations`, `C80_functions`, `C80_mpf`, `C80_sqrt_aborts` |
| C81 | csv export | `Properties_Results.v` | `C81_mpf_refuted`, `C81_rows` |
| C82 | the configuration saved with the results | `Properties_Config.v` | `C82_saved_reloads_without_lhs`, `C82_results_config_reloads_refuted`, `C82_lhs_written`, `C82_texts_in_lists_refuted` |
| C83 | loading a configuration | `Properties_Config.v` | `C83_required`, `C83_defaults_refuted`, `C83_functions`, `C83_types` |
| C84 | which table files a run changes | `Properties_Main.v` | `C84_only_named_file`, `C84_use_reads_only`, `C84_generate`, `C84_expand`, `C84_normal_pairs` |
| C85 | versions of table files in whole runs | `Properties_Main.v` | `C85_expand_in_place`, `C85_next_version_refuted`, `C85_generate_new_file_refuted` |
| C86 | the constant of a run | `Properties_Main.v` | `C86_unknown`, `C86_feig_percolation`, `C86_zeta`, `C86_name` |
| C87 | whole histories of runs never report a result | `Properties_Main.v` | `C87_no_results`, `C87_mpmath_search` |
| C88 | interrupting the last refinement | `Properties_Main.v` | `C88_interrupt` |
| C89 | the files of a search | `Properties_Main.v` | `C89_four_files`, `C89_minute`, `C89_results_kept_refuted` |
| C90 | repeating a search from its saved settings | `Properties_Main.v` | `C90_rerun` |
| C91 | runs that only make a table | `Properties_Main.v` | `C91_table_only`, `C91_setting`, `C91_no_refuted` |
| C92 | settings without effect | `Properties_Main.v` | `C92_unread`, `C92_printing` |
| C93 | generating with functions that do not work | `Properties_Main.v` | `C93_generate` |
| C94 | iterating with a progress bar | `Properties_Progress.v` | `C94_transparent`, `C94_empty`, `C94_start`, `C94_no_length`, `C94_length_zero` |
| C95 | what a progress bar shows | `Properties_Progress.v` | `C95_display`, `C95_rate` |
| C96 | geometric convergence is recognised | `Properties_Classify.v` | `C96_geometric`, `C96_threshold` |
| C97 | how the speed of convergence is decided | `Properties_Classify.v` | `C97_exp`, `C97_large`, `C97_exp_only`, `C97_mixed`, `C97_slow`, `C97_poly_only` |
| C98 | results that stopped changing | `Properties_Classify.v` | `C98_fast_only`, `C98_fast`, `C98_few`, `C98_no_odd` |
| C99 | the estimate of a continued fraction | `Properties_Classify.v` | `C99_samples`, `C99_convergent`, `C99_exp`, `C99_cutoff_zero` |
| C100 | splitting a search into jobs | `Properties_Scripts.v` | `C100_job_files`, `C100_too_many`, `C100_not_power`, `C100_started`, `C100_jobs_run_refuted` |
| C101 | splitting a search from another directory | `Properties_Scripts.v` | `C101_relative_fails`, `C101_absolute` |
| C102 | joining tables from files | `Properties_Scripts.v` | `C102_join`, `C102_empty`, `C102_precisions`, `C102_twice`, `C102_existing_kept_refuted` |
| C103 | splitting, running and joining equals one run | `Properties_Scripts2.v` | `C103_split_run_join` |
| C104 | measuring the error of every convergent | `Properties_Errors.v` | `C104_errors`, `C104_zero_b` |
| C105 | the fraction for 1/(e/2-1) converges super-exponentially | `Properties_Errors.v` | `C105_super_exponential` |
| C106 | the unknown fraction for 4/pi converges exponentially | `Properties_Errors.v` | `C106_exponential` |
| C107 | the known fraction for 4/pi converges exponentially | `Properties_Errors.v` | `C107_exponential` |
| C108 | the fraction for pi+3 converges polynomially | `Properties_Errors.v` | `C108_polynomial` |
| C109 | evaluating a continued fraction from integer polynomials | `Properties_Errors.v` | `C109_double_arithmetic`, `C109_working_precision_refuted` |
| C110 | the digits of pi and e | `Properties_Consts.v` | `C110_pi`, `C110_e`, `C110_more_digits_refuted` |
| C111 | the digits of the golden ratio and of the percolation thresholds | `Properties_Consts.v` | `C111_golden`, `C111_percolation`, `C111_default_precision_refuted` |
| C112 | the digits of the zeta values | `Properties_Consts.v` | `C112_zeta`, `C112_apery`, `C112_default_precision_refuted` |
| C113 | the data of the plots of the four fractions | `Properties_Nips.v` | `C113_points`, `C113_larger_window` |
| C114 | converting files of old results to pdf | `Properties_Legacy.v` | `C114_equations`, `C114_other_function`, `C114_powers`, `C114_repository_refuted` |
| C115 | the name of the pdf of old results | `Properties_Legacy.v` | `C115_name`, `C115_right`, `C115_collision_refuted`, `C115_relative_refuted` |
| C116 | the targets of files of old results | `Properties_Legacy.v` | `C116_targets`, `C116_index_refuted`, `C116_unknown`, `C116_three_columns`, `C116_current_export_refuted` |
| C117 | loading a file of continued fractions | `Properties_Legacy2.v` | `C117_load`, `C117_blank_line`, `C117_printed`, `C117_other_fraction_refuted`, `C117_tuples_refuted` |
| C118 | what loading a file evaluates | `Properties_Legacy2.v` | `C118_evaluated`, `C118_any_code_refuted` |
| C119 | the analysis of a file of continued fractions | `Properties_Legacy2.v` | `C119_figures`, `C119_filetype_refuted`, `C119_row_refuted` |
| C120 | the points of the fit in the analysis of a file | `Properties_Legacy2.v` | `C120_points`, `C120_few`, `C120_decimal_refuted` |
| C121 | the older classification of the convergence | `Properties_Legacy3.v`, `Properties_Legacy4.v` | `C121_no_is_zero_refuted`, `C121_geometric`, `C121_fast`, `C121_fast_iff`, `C121_one_sided_refuted`, `C121_no_factor`, `C121_undefined`, `C121_exp`, `C121_mixed`, `C121_poly` |
| C122 | what a whole search reports | `Properties_Search.v` | `C122_pipeline`, `C122_run` |
| C123 | runs with the configuration files that come with the program | `Properties_Shipped.v` | `C123_mpmath`, `C123_missing`, `C123_readme`, `C123_extend`, `C123_fresh` |
| C124 | the configuration files for searches for e | `Properties_Shipped.v` | `C124_search_for_e_refuted` |
| C125 | Brouncker's fraction for 4/pi+1 | `Properties_TestFracs.v` | `C125_brouncker`, `C125_threshold` |
| C126 | the fraction for e/(e-1) | `Properties_TestFracs.v` | `C126_factorial` |
| C127 | the fraction for the golden ratio | `Properties_TestFracs.v` | `C127_golden` |
| C128 | the interlaced fraction for 2^(1/12)+1 | `Properties_TestFracs.v` | `C128_interlaced` |
| C129 | what the test of the continued fractions checks | `Properties_TestFracs.v` | `C129_test_cases` |
| C130 | runs with the configuration files of the tests | `Properties_Fixtures.v` | `C130_mpmath`, `C130_sequences` |
| C131 | what the sanity checks look for | `Properties_Apery.v`, `Properties_Fixtures.v` | `C131_apery_limit`, `C131_apery_rate`, `C131_pi_listed`, `C131_apery_listed` |
| C132 | every answer of the classification with six or more known factors | `Properties_Classify2.v` | `C132_undefined`, `C132_mixed`, `C132_exp`, `C132_poly`, `C132_poly_raises` |
| C133 | the Taylor series for cosine and sine | `Properties_Trig.v` | `C133_ends`, `C133_cos`, `C133_sin`, `C133_small` |
| C134 | the stored results are equations | `Properties_OldResults.v` | `C134_true`, `C134_oldest_refuted`, `C134_computes` |
| C135 | converting the stored results | `Properties_OldResults.v` | `C135_results_refuted`, `C135_empty_files`, `C135_oldest_refuted` |
| C136 | what agreeing digits mean | `Properties_Digits.v` | `C136_numerals`, `C136_kept`, `C136_reported`, `C136_run`, `C136_small_refuted`, `C136_close_refuted` |
| C137 | fractions that differ by a factor | `Properties_Scaled.v` | `C137_values`, `C137_objects`, `C137_same_equation`, `C137_recognised_refuted` |
| C138 | fractions with positive coefficients | `Properties_Positive.v` | `C138_enclosed`, `C138_estimate`, `C138_exponential`, `C138_converges`, `C138_any_degree_refuted` |
| C139 | fractions whose denominators outweigh their numerators | `Properties_Dominant.v` | `C139_close`, `C139_converges`, `C139_results`, `C139_equal_refuted` |
| C140 | fractions that are not rational | `Properties_Dominant.v` | `C140_dominant`, `C140_positive`, `C140_results`, `C140_bounds_refuted` |
| C141 | what an interrupted search reports | `Properties_Interrupt.v` | `C141_pipeline`, `C141_confirmed_twice`, `C141_run`, `C141_results_right_refuted` |
| C142 | configuration files that are written are read back | `Properties_Ini.v` | `C142_read_written`, `C142_saved`, `C142_jobs`, `C142_lone_percent`, `C142_percent_refuted` |
| C143 | what a configuration file means | `Properties_Ini.v` | `C143_comments`, `C143_given_twice`, `C143_no_section`, `C143_end_of_line_comment_refuted`, `C143_indented_refuted` |
| C144 | the texts of the configuration files that come with the program | `Properties_IniFiles.v` | `C144_shipped`, `C144_fixtures` |
| C145 | csv files that are written are read back | `Properties_Csv.v` | `C145_read_written`, `C145_line_ends`, `C145_carriage_return_refuted`, `C145_export`, `C145_different` |
| C146 | the texts of the stored results | `Properties_Csv.v` | `C146_texts`, `C146_all_files`, `C146_conversion_refuted`, `C146_oldest` |
| C147 | the constant that a table is stored with | `Properties_Target.v` | `C147_stored` |
| C148 | what the settings of a configuration file say | `Properties_IniRefs.v` | `C148_meaning`, `C148_distinct`, `C148_unique`, `C148_says_nothing`, `C148_circle`, `C148_chain_refuted`, `C148_missing`, `C148_lone_percent` |
| C149 | the texts that the analysis of continued fractions reads | `Properties_LegacyCsv.v` | `C149_loaded`, `C149_results_refuted` |
| C150 | what a csv file says, whoever wrote it | `Properties_CsvRead.v` | `C150_read`, `C150_one_meaning` |

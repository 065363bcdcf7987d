# Design

Formal model of NHERI-SimCenter/pelicun (pinned commit in /repo) in Coq 8.16.1.
`properties.jsonl` lists the properties in English; this file says how each is
modelled and proved, and what the trusted base is. `MANIFEST.json` maps
properties to theorem names; `seeded/LOG.jsonl` records deliberate model bugs
and the theorems that caught them.

## Shape of the development

| layer | files | contents |
|---|---|---|
| prelude | `Prelude.v` | results with Python exceptions as values, ordered dictionaries, string helpers, rational arithmetic tactics |
| model | `M_*.v` | one file per pelicun module (or part of it); definitions only, each citing file and lines; no proofs |
| proofs | `P_*.v` | lemmas |
| theorems | `T_*.v` | property theorems only, each closed by `exact lemma`, with a non-vacuity `Example` and `Print Assumptions` |

Conventions:

* Python exceptions are values: `Err ValueError` etc. A function that raises in
  Python returns `Err` in the model, so "rejects" is part of the statements.
* Numbers. Floating point numbers are idealised as exact rationals (`Qc`, canonical
  rationals, so equality is Leibniz equality) in the discrete pipeline, and as
  reals (`R`) where `exp`, `log`, cdfs or quantile functions are involved. NaN is
  `None` in `option Qc`, with pandas semantics (comparison with NaN is false, sums
  skip NaN). Where rounding itself is the subject (C13) binary64 is modelled with
  the standard library's `SpecFloat`.
* A pandas table is a list of labelled columns (label, values). Row-wise
  operations are modelled per row. Label levels are strings compared
  lexicographically exactly as pandas compares Python strings.
* External functions (scipy's normal cdf and quantile function, the random
  generator, the GitHub API, the file system, Python's `int()`) are arguments of
  the model functions; what is assumed of them is a visible hypothesis of the
  theorem, and an instance meeting the hypotheses is given beside it.
* A property the faithful model violates gets a theorem named `..._refuted` with
  a concrete witness, plus the strongest corrected statement we can prove.

## Plan per property

| id | modelled | proof | expected outcome |
|---|---|---|---|
| C01 | `save_to_csv` scaling, `load_data` scaling (units row/column) | algebra on columns | proved |
| C02 | `convert_units` on a category table | case analysis + field | proved |
| C03 | `parse_units` flattening | induction on the nested table | proved |
| C04 | `convert_to_SimpleIndex`/`convert_to_MultiIndex` on string lists | induction on strings: split (join l) = l | refuted in general, proved for labels without '-' and equal depth |
| C05 | `update_vals` on nested dictionaries | nested induction | proved |
| C06 | `get`/`update`/`is_unspecified` on nested dictionaries | induction on paths | proved |
| C07 | `dedupe_index` | induction, counting | proved |
| C08 | `invert_mapping` | induction | proved |
| C09 | `multiply_factor_multiple_levels` | list map characterisation | proved |
| C10 | logger state machine | invariant over all histories | proved |
| C11 | `_get_locations`, `_get_directions` with `int(float(s))` on text | shape lemmas for numbers as text; relation of documented forms | proved for documented forms, refuted for other ranges |
| C12 | `load_cmp_model` expansion, unit conversion, numbering | permutation of the places of the rows, uses C07 | proved for consistent units, refuted otherwise |
| C13 | LHS bins over `Qc`; binary64 via SpecFloat | permutation argument; witness | proved over exact arithmetic, refuted in binary64 |
| C14 | truncated inverse transforms and cdfs over `R` with infinities and NaN; cdf/ppf of the normal law are arguments | order reasoning over any law with an inverse; explicit Weibull law | proved for proper parameters, refuted for negative means and negative lognormal limits |
| C15 | uniform inverse transform | witness + corrected scope | refuted in general, proved for two limits inside the range |
| C16 | multinomial inverse transform | induction on cumulative sums | proved |
| C17 | registry with shared uniform sample arrays | witness; invariant of the fold over the variables | refuted in general, proved for variables not sharing values with an earlier multinomial one |
| C18 | empirical and coupled empirical | floor arithmetic | proved |
| C19 | argsort reorder of Rho | permutation reasoning | proved |
| C20 | registry as ordered dict | invariant over histories | proved |
| C21 | `scale_distribution` over any numbers | quantile equation per family | proved except for multilinear points (refuted) and implicit lognormal limits |
| C22 | multilinear cdf | induction on segments | proved for accepted points; acceptance refuted for points closer than 1e-8 |
| C23 | `estimate_RID` | arithmetic per branch | proved |
| C24 | `parse_settings` | witness + corrected scope | refuted for limits inherited from ALL |
| C25 | filter masks | list filter characterisation | proved |
| C26 | `clone_demands` | list characterisation | proved for values; units refuted |
| C27 | `_get_required_demand_type`, `_assemble_required_demand_data` | characterisation + max lemmas | proved |
| C28 | `_verify_edps_available` | witness + corrected scope | refuted for a missing direction |
| C29 | `_get_pg_batches` | well-founded induction | proved |
| C30 | `_evaluate_damage_state` | fold characterisation; witness | proved for ordered limit states, refuted in general |
| C31 | `obtain_ds_sample` over batches | batches partition the groups; witness | proved for gapless limit states, refuted in general |
| C32 | `prepare_dmg_quantities` | counting | proved |
| C33 | `perform_dmg_task` and helpers | frame lemmas | proved |
| C34 | sorting of task keys | witness + corrected scope | refuted from ten tasks on |
| C35 | default process through C33 model | case analysis per realization | proved |
| C36 | `assign_lsds` numbering | induction | proved |
| C37 | `load_model_parameters` of the damage and loss models: concat, groupby first, unit conversion of marginals | invariant of merging over the list of sources, for both kinds of `first`; relation between definitions and converted rows; witness for losses | proved for damage, partial for losses |
| C38 | scaling specification parser | string case analysis | proved |
| C39 | `probabilities` | counting | proved |
| C40 | `aggregate_losses`, `make_replacement_exclusive` | witness; cell-wise specification | refuted end to end, proved for the helper |
| C41 | `aggregate_losses` with thresholds | iff characterisation of every reported value | partial (names, missing ratios) |
| C42 | `aggregate_losses` | iff characterisation of every reported value | partial (names) |
| C43 | loss model state over sequences of calls | induction over calls; witness for labels | partial |
| C44 | consequence scaling | characterisation via C09 | proved |
| C45 | `_prep_bounded_multilinear_median_DV` | independent curve relation; induction on segments | proved |
| C46 | `add_loss_map` | induction over the components | proved for plain and DMG labels, refuted for mixed ones |
| C47 | `RepairModel_DS.calculate` | characterisation of labels and values; universal refutations of the failing settings | partial |
| C48 | `RepairModel_LF.calculate`, `stringterpolation` | characterisation of labels and values as function value at the demand times quantity; equality of outcomes for any block counts; universal refutations of the failing settings | partial |
| C49 | `LossModel.load_model_parameters`, availability check | set reasoning over the merged definitions | proved |
| C50 | unit consistency check, `_convert_marginal_params`, `scale_distribution` | equivalence with the inconsistency of a file; errors other than units errors excluded by induction; witness across files | proved per file, refuted across files |
| C51 | `_apply_loss_combinations`, order of set iteration an argument | iff characterisation of the combined table; witness | partial |
| C52 | the replacement rows of `calculate_loss`, loaded by the loss model | cell by cell | configured values and defaults proved; removal refuted |
| C53, C54, C55 | updates as traces of all states they go through, character by character; histories of updates, interruptions, checks, edits | invariant over histories (the hashes on record are those of the commit on record); witnesses | partial with refutations |
| C56 | chunks of the inventory; files written and listed in any order; reindexing. The processing of a chunk is an argument | permutation reasoning | proved |
| C57 | sorting and reshaping of grid columns, relabelling | uniqueness of sorting, block arithmetic; witness for every unsorted order | refuted in general, proved for sorted names |
| C58 | filter parser | string parsing + sorting | proved |
| C59 | NNR weights, expected values, resampling; the search and the draws are arguments | field/order reasoning | proved |
| C60 | `_damage_save` with CondenseDS | grouped sums, maxima | proved |
| C61 | the module-level output dictionaries with aliasing, sequences of runs | invariants over histories; witnesses | partial with refutations |
| C62 | `groupby(level).sum()` with missing values | sums over a partition; regrouping | proved |
| C63, C75 | the files of the output directory through a whole run | content of every file name | C63 proved, C75 refuted for JSON |
| C64 | `complete_ds_cols` | set characterisation | proved |
| C65 | anchors in `_create_dmg_RVs` | induction over limit states | proved; rejection when the first limit state is undefined |
| C66 | `_create_dmg_RVs` over block counts | simulation of two block counts | refuted for multilinear_CDF, proved otherwise |
| C67 | `save_to_csv`, `load_data` unit lookups | case analysis; witness | proved for saving, refuted for loading |
| C68 | `expand_sample`, `estimate_RID_and_adjust_sample` on top of the C01 model | round trip lemma | proved |
| C69 | ERROR column handling in `load_sample` | filter characterisation; witnesses | proved for one ERROR column and three levels, refuted otherwise |
| C70 | the table handed to `estimate_RID` | witness | refuted for units with a factor other than 1 |
| C71 | `_clean_up_expression` | character table, induction on the text | proved |
| C72 | two calls of `load_model_parameters` | determinism of the conversion, blank units of converted rows; witnesses | proved for complete damage parameters, refuted for losses |
| C73 | `_ensure_damage_parameter_availability` | corollary of C37 | proved |
| C74 | `_create_cmp_RVs` labels, `generate_cmp_sample` columns | split/join lemmas over sorted labels | proved for labels without hyphens, refuted otherwise |
| C76 | decision variables of a chunk | case analysis | refuted in general |
| C77 | condensation of the damage sample | maximum over states, unique rows | proved for one component per building, refuted otherwise |
| C78 | selection of the inventory | list reasoning on the parsed filter | proved for filters naming a building, refuted otherwise |
| C79 | `_create_loss_map`, replacement rows, `add_loss_map` | membership in the map | automatic proved; user maps partial, two refutations |
| C80 | built-in processes and their pruning | rules kept iff component present | FEMA proved, Hazus partial, refuted for several components and underscores |
| C81 | collapse limits | filter of rows | proved |
| C82 | inference of units, then loading | table of quantities | proved for the listed types, refuted for others |
| C83 | supporting components | case analysis, locations and directions of C71, C72 | proved on full grids, refuted otherwise |
| C84 | paths and tables of databases | order of tables, C37 | precedence proved, reporting refuted |
| C85 | generated fragilities | cell by cell | proved for assigned components, refuted for samples |
| C86 | residual drifts with the mutable configuration | induction over directions | one run proved, repetition refuted |
| C87 | wind and flood in the loss map | position in the map | proved in order, refuted otherwise |
| C88 | calibration, then generation with coupled data | the data of the model is the filtered sample column by column, C06 | proved |
| C89 | model files, sorting and unit conversion | conversion there and back is the identity, sorting is a permutation | proved for models with units, refuted after clones |
| C90 | random variables of demands and their labels | injective names, permutation of the set, C04 | proved for labels without hyphens, refuted with |
| C91 | increase of the second parameter | position in the fitted rows | parameter proved, meaning refuted for normal |
| C92 | calibration, loading and generation on states that differ | determined by the fields that are read | proved for generation, refuted for files |
| C93 | generation, units of clones | unchanged fields | proved without clones, refuted with |
| C94 | fit of parameters over the reals, minimization as an argument | sums, initial values | proved for reals without limits, refuted for integers |
| C95 | standard normal values, correlation, repair of the matrix | Gram matrix is semidefinite; bounds from definiteness | proved without limits, coefficients in general; refuted with limits (three equal demands, root of a 3x3 matrix is unique) |
| C96 | the same | statistics of scaled and shifted values | proved without limits |
| C97 | arrays that are shared with the caller | what is stored in them | proved for lists, refuted for arrays |
| C98 | bounds of the search by position | inversion of the fit for one demand | proved without limits and for equal parity, refuted in general |
| C99 | check of the limits after the logarithms | monotonicity of the logarithm | proved for floats, refuted for negative limits and integers |
| C100 | `save_cmp_sample`, `load_cmp_sample` (units of columns, number of levels, blocks) | closed form of the saved table | proved, refuted for blocks |
| C101 | `DamageModel.save_sample`, `load_sample` (components without columns or units) | closed form of the saved table | proved, refuted for components the asset does not list |
| C102 | `RepairModel_DS.save_sample`, `load_sample` (pairs of decision variable and component) | closed form of the saved table; first unit of a group | proved without orphan pairs, refuted with them and for six levels |
| C103 | `save_sample` without file, `load_sample` of the table with and without units | closed form of the saved table | proved with units or factors of one, refuted otherwise |
| C104 | CSV files as texts, `read_csv`, `convert_df_to_dict` on labels of any depth, the units | induction on the levels of the labels: found paths = labels | proved |
| C105 | the same, for rows that are not numbers | the same lemma with the leaf of named rows | proved without units, refuted with units |
| C106 | `_summary_save`: grouped damage of two components, aggregate losses | sums by group = sums of the sample | proved |
| C107 | `describe`: mean, deviation, extremes, linear interpolation of order statistics | sorted lists, uniqueness of interpolation up to permutation | proved |
| C108 | components of a chunk of buildings: `unique_list`, one row per component, `load_cmp_model` | texts of integers parse back, groups, permutations of the loaded groups | proved for components and amounts, directions partial and refuted |
| C109 | `_calculate_losses_hazus_eq`: groups of an occupancy class, damage at their locations, totals by location, collection | the loss calculation is an argument that is local; grouping twice is grouping once | proved for local calculations, refuted for missing classes |
| C110 | `substitute_default_path` on texts, the table of methods, the names of earlier versions, `get_default_data`, `load_consequence_info` for one name | splitting at slashes; the tables are finite, paths, endings and files are not | proved for methods, refuted for earlier names |
| C111 | sequences of `calculate_damage` and `calculate_loss`: the parameters that stay with the models | induction over the calls, earliest definition since the component is in the asset | proved for histories, refuted for new parameters |
| C112 | demands added by `calculate_damage`, configurations as dictionaries | from C68 | proved for default places, refuted for others |
| C113 | `fit_distribution_to_percentiles` | the starting point is the distribution through the median and the highest percentile; argmin over the candidates | proved with a percentile above the median, refuted otherwise |
| C114 | generators as objects on a heap, steps of several assessments | simulation: no two assessments refer to one generator | proved; refuted for added variables with LHS and for later samples |
| C115 | the configuration as nested dictionaries; `_parse_config_file` step by step, the schema as data, scripts as a function of the host | frames: which settings each step can change; composed over the steps | proved by cases (DL section, scripts); refuted for user options, ignored arguments, skips of two scripts, component samples, default demand file, collapse dispersion, runs without losses |
| C116 | the evaluation of limit states of M_Damage, run twice | the highest exceeded limit state decides (C30); exceedance is monotone; highest one by induction on its number | proved when no component skips limit states of another; refuted otherwise |
| C117 | demands, batches, limit states, damage processes and quantities of M_Damage, M_Demand and M_Obtain, run twice on tables that share a row | relational induction: each step keeps the rows the same | proved; evaluation of expressions row by row is assumed |
| C118 | M_LossDS, M_LossLF and M_Agg run twice on tables that share a row | relational induction with a relation on results (both succeed and are related) for every function of the chain | proved for successful runs; two refutations for what other realizations can change; evaluation of expressions row by row is assumed |
| C119 | M_LossCalc: `LossModel.calculate` with the state it leaves behind, on top of M_LossDS and M_LossLF | induction over the sequence of calculations | proved for damage states and for loss functions in use; refuted when none is in use and after failures |
| C120 | M_Obtain, M_Damage, M_LossDS and M_LossLF run on two assets that have the columns of a component in common (S_Components) | characterizations of damage states (C31), amounts (C32) and losses (C47, C48) by what concerns the component | proved for successful runs; refuted for gaps in limit states and for failures |
| C121 | M_Cli: the parser of DL_calculation (argparse's rules for options, attached values, beginnings of names, switches with optional values) and the keywords passed on | induction over the settings; finite tables of names by computation | proved; refuted for `--coupled_EDP` without value, `--log_file`, and upper case formats |
| C122 | M_Cli: targets of `pelicun dlml update`, the check of commits, the check on import; the remote library is an arbitrary function | case analysis for all targets | proved; refuted for full names of commits and for options before the action |
| C123 | M_Assess (`apply_process`: choice, naming and filtering of the rules) on top of M_Damage (tasks applied to the damage states) | every process as a sequence of updates of cells; rules of missing components are shown to be the identity | proved; refuted for several structural components |
| C124 | `M_Load.v`: `load_data` with the texts for missing values, the conversion of columns to numbers, and the units | `P_Load.v`: the column that results from converting once or twice; `T_Load.v`: every cell of the result | partial: a text in a column stops the conversion of its numbers |
| C125 | `M_Log`: loggers of a process, their files, the screen, warnings (state of `M_Base`), uncaught exceptions | contents of the log, the warnings file and the screen as functions of the history, by induction over the history; removal of the decoration of warnings | refuted for gaps as wide as the indentation, exceptions of later runs, shared log files; files assumed writable |
| C126 | `M_Dv`: parsing of the settings, active variables, end of calculate_loss | C126_active, C126_reported_partial and C126_accepted (through C42), C126_history by induction over the calculations, C126_combination | C126_refuted: none asked for, Cost and Time are reported |

## Trusted base

* Coq 8.16.1's kernel (including `vm_compute`).
* The axioms listed per theorem in the section "Assumptions", all from the
  standard library's real numbers (`Reals`).
* The reading of the Python source: nothing here executes pelicun. pandas and
  numpy operations are modelled from their documented behaviour in `Pandas.v`
  and at the head of each model file.

## What is modelled

| module of pelicun | modelled | not modelled |
|---|---|---|
| base.py | the generator of `Options` (as an object on a heap), `convert_units`, `parse_units`, `convert_to_SimpleIndex`, `convert_to_MultiIndex`, `update_vals`, `get`, `update`, `is_unspecified`, `is_specified`, `dedupe_index`, `invert_mapping`, `multiply_factor_multiple_levels`, `Logger` (messages, warnings, files and screen; uncaught exceptions), `EDP_to_demand_type`, `describe` (square roots and logarithms are arguments) | failures to write the log files, `print_system_info`, string formatting helpers |
| file_io.py | `save_to_csv`, `load_data` (header levels, unit row or column, scaling; `M_Load`: texts, missing values, columns that are converted to numbers), `substitute_default_path` | CSV text (quoting, encodings); the reading of texts as numbers is an argument |
| model/demand_model.py | `load_sample`, `save_sample` table, `estimate_RID`, `estimate_RID_and_adjust_sample`, `expand_sample`, `calibrate_model`, `save_model`, `load_model` (files and tables), `_create_RVs`, `generate_sample`, `clone_demands`, `_get_required_demand_type`, `_assemble_required_demand_data`, `_clean_up_expression`, `_verify_edps_available` | the fit itself and the construction of variables of a family (arguments), parameters that are curves in files, evaluation of expressions (an argument) |
| model/pelicun_model.py | `_convert_marginal_params` (per row), `_get_locations`, `_get_directions` | logging; the rounding of `float(s)` to 53 bits in locations |
| model/asset_model.py | `load_cmp_model`, labels of `_create_cmp_RVs` and `generate_cmp_sample`, `save_cmp_sample`, `load_cmp_sample` | the distribution of the quantities |
| model/damage_model.py | `load_model_parameters`, `_get_pg_batches`, `_create_dmg_RVs` with `assign_lsds` and scaling specifications, `_evaluate_damage_state`, `prepare_dmg_quantities`, `perform_dmg_task`, process ordering, `complete_ds_cols`, `probabilities`, default processes, `obtain_ds_sample` over batches, `save_sample`, `load_sample` | generation of the random numbers |
| model/loss_model.py | `add_loss_map`, `load_model_parameters`, `sample`, `aggregate_losses` with exclusive replacement, loss combinations (bilinear interpolation over rationals), replacement thresholds, totals and units; consequence scaling; `RepairModel_DS.calculate`, `_calc_median_consequence`, `_create_DV_RVs`, `save_sample`, `load_sample`; `LossModel.calculate` and the state it leaves behind | distribution and correlation of the draws (arguments), sampling of the replacement values (an argument), argument type checks |
| uq.py | normal, lognormal and Weibull variables with truncation; `scale_distribution`; uniform, multilinear CDF, empirical, coupled empirical, deterministic and multinomial variables; `RandomVariableSet` (order, `Rho`); `RandomVariableRegistry` with anchors and shared arrays; LHS also in binary64 ; `fit_distribution_to_sample` (logarithms, initial values, bounds, limits, standard normal values, correlation matrix, aliasing of arguments); `fit_distribution_to_percentiles` | the likelihood, the minimizer and the matrix decompositions (arguments), orthotope densities, the copula of a set (an argument) |
| assessment.py | references to the library (`get_default_data`, sources of `load_consequence_info`), `calculate_demand` (limits, units, residual drifts, constant demand), `calculate_asset` (supporting components), `calculate_damage` (databases, generated fragilities, damage process), `calculate_loss` (replacement consequences, loss map, components of the combination); demands added and parameters kept by `Assessment.calculate_damage` and `calculate_loss` | saving of samples and models, setup from arguments, logging |
| tools/dlml.py | `download_data_files`, `_download_file`, `_get_changed_files`, `load_cache`, `save_cache`, `check_dlml_data`, writes of `check_dlml_version`, releases in `_resolve_version_to_commit_sha`, `validate_commit_sha`, requests in `dlml_update` (with `cli.py`) | HTTP, JSON text, version comparison, paths (distinct texts are distinct files), the hash (an argument) |
| tools/DL_calculation.py | grouping and condensing in `_damage_save`, `_loss_save`; requested files of `_demand_save` … `_summary_save`; `_remove_existing_files`, `_create_json_files_if_requested`, `_remove_csv_files_if_not_requested`; `_parse_config_file`; the contents of the JSON versions, of the summary and of the saved component samples; the options in `main` and what reaches `run_pelicun` | the text form of numbers (an argument), values attached to short names of options, help texts |
| auto.py | `auto_populate` | loading and running the scripts (an argument of the model) |
| settings/input_schema.json | all of it, as data: type, anyOf of types, required, properties, patternProperties | nothing else is used in it |
| tools/NNR.py | weights, expected values with and without realizations, resampling of neighbours | neighbour search (scikit-learn), random draws, shape checks |
| tools/regional_sim.py | `parse_id_filter`, selection of the inventory, grid values to demand columns, chunks, partial files and their collection, condensation of the damage sample, choice of decision variables, components of a chunk, Hazus loss grouping | reading of input files, auto-population, the damage and loss calculations of a chunk (modelled with the other modules) |

## Assumptions

From `Print Assumptions` below each theorem.

* Closed under the global context: the 490 theorems not listed below.
* `ClassicalDedekindReals.sig_forall_dec`, `FunctionalExtensionality.functional_extensionality_dep`: C23_monotone, C14_normal_std, C14_normal_cov_partial, C14_normal_cov_refuted, C21_normal_std, C21_normal_cov.
* `ClassicalDedekindReals.sig_forall_dec`, `ClassicalDedekindReals.sig_not_dec`, `Classical_Prop.classic`, `FunctionalExtensionality.functional_extensionality_dep`: C23_bounds, C23_zero, C23_curve, C23_table, C23_methods, C14_lognormal_partial, C14_lognormal_refuted, C14_weibull, C21_lognormal_partial, C21_lognormal_upper_partial, C94_moments_partial, C94_integers_refuted, C95_sample_correlations, C95_coefficients_partial, C95_limits_refuted, C95_fallback_partial, C96_units_partial, C97_arguments_partial, C97_overwritten_refuted, C98_alone_partial, C98_parity_partial, C98_widest_partial, C98_position_refuted, C99_inside_partial, C99_negative_refuted, C99_integers_refuted, C113_best, C113_exact, C113_lower_refuted, C113_unknown.

{
 "claims": [
  {
   "property": "C01",
   "status": "partial",
   "theorems": [
    "C01_round_trip_partial",
    "C01_file",
    "C01_needs_factors",
    "C01_no_units",
    "C01_rows_partial",
    "C01_rows_refuted"
   ],
   "note": "Tables with variables in columns: proved for every table with distinct, dash-free labels of equal depth and known units. Tables with variables in rows: not scaled on saving (refutation given), proved if the dtype test recognised numbers."
  },
  {
   "property": "C02",
   "status": "proved",
   "theorems": [
    "C02_accepted_iff",
    "C02_accepted_category_iff",
    "C02_round_trip",
    "C02_composition",
    "C02_linear",
    "C02_value"
   ],
   "note": ""
  },
  {
   "property": "C03",
   "status": "proved",
   "theorems": [
    "C03_accepted_iff",
    "C03_exact"
   ],
   "note": ""
  },
  {
   "property": "C04",
   "status": "partial",
   "theorems": [
    "C04_round_trip_partial",
    "C04_round_trip_back_partial",
    "C04_expand",
    "C04_expand_flat",
    "C04_axis",
    "C04_table_round_trip_partial",
    "C04_refuted",
    "C04_back_refuted"
   ],
   "note": "Lossless for labels of equal depth without a dash; false in general (dash inside a level, ragged depth): refutations given."
  },
  {
   "property": "C05",
   "status": "proved",
   "theorems": [
    "C05_merge_by_path",
    "C05_rejected_iff",
    "C05_idempotent",
    "C05_no_user_config"
   ],
   "note": ""
  },
  {
   "property": "C06",
   "status": "proved",
   "theorems": [
    "C06_update_get",
    "C06_update_only_if",
    "C06_get_spec",
    "C06_get_none",
    "C06_slashes",
    "C06_is_unspecified_list_refuted",
    "C06_unspecified",
    "C06_unspecified_answers"
   ],
   "note": "Read/write laws proved; additionally shows is_unspecified raises for lists with two or more elements."
  },
  {
   "property": "C07",
   "status": "proved",
   "theorems": [
    "C07_unique",
    "C07_nothing_lost",
    "C07_uid",
    "C07_sorted"
   ],
   "note": ""
  },
  {
   "property": "C08",
   "status": "proved",
   "theorems": [
    "C08_accepted_iff",
    "C08_inverse"
   ],
   "note": ""
  },
  {
   "property": "C09",
   "status": "proved",
   "theorems": [
    "C09_accepted_iff",
    "C09_effect",
    "C09_commute"
   ],
   "note": ""
  },
  {
   "property": "C10",
   "status": "proved",
   "theorems": [
    "C10_at_most_once",
    "C10_all_shown",
    "C10_only_added",
    "C10_messages_distinct"
   ],
   "note": ""
  },
  {
   "property": "C11",
   "status": "partial",
   "theorems": [
    "C11_locations",
    "C11_directions",
    "C11_decimal",
    "C11_scientific",
    "C11_rejected_partial",
    "C11_range_ends_partial",
    "C11_refuted"
   ],
   "note": "Every documented form of a location and direction for any number of stories, decimals, numbers with exponents, and rejection of other text without dashes. Refuted: ranges between lists or keywords and reversed ranges are accepted; a missing direction is not direction 1."
  },
  {
   "property": "C12",
   "status": "partial",
   "theorems": [
    "C12_groups",
    "C12_own_unit_partial",
    "C12_accepted",
    "C12_refuted"
   ],
   "note": "Every accepted table: groups are a permutation of the places of the rows with their quantities, labels distinct. Refuted: unit of a later row of a component ignored; reversed ranges dropped silently; missing direction rejected."
  },
  {
   "property": "C13",
   "status": "partial",
   "theorems": [
    "C13_strata_partial",
    "C13_binary64_refuted"
   ],
   "note": "Exact arithmetic: every n, permutation and draw, for free variables outside of correlated sets. Refuted in binary64: (1 + (1 - 2^-53)) / 2 rounds to 1."
  },
  {
   "property": "C14",
   "status": "partial",
   "theorems": [
    "C14_normal_std",
    "C14_normal_cov_partial",
    "C14_normal_cov_refuted",
    "C14_lognormal_partial",
    "C14_lognormal_refuted",
    "C14_weibull",
    "C14_sample"
   ],
   "note": "Any limits, parameters and uniform values, over the reals with any strictly increasing cdf and its inverse in place of the standard normal pair. Refuted: Normal_COV with a negative mean gives NaN; a negative lower limit makes the lognormal cdf NaN; a negative upper limit of a lognormal variable gives NaN instead of an error."
  },
  {
   "property": "C15",
   "status": "partial",
   "theorems": [
    "C15_partial",
    "C15_refuted"
   ],
   "note": "Holds without limits and with two limits inside the range. Refuted: limits outside of the range replace it, and a single limit gives NaN."
  },
  {
   "property": "C16",
   "status": "proved",
   "theorems": [
    "C16_outcome",
    "C16_rejected"
   ],
   "note": "Any probabilities summing to at most 1; the last outcome takes the remainder."
  },
  {
   "property": "C17",
   "status": "partial",
   "theorems": [
    "C17_governed_partial",
    "C17_intact_partial",
    "C17_order_partial",
    "C17_refuted"
   ],
   "note": "Holds for every variable that is not governed by the same variable as an earlier multinomial one, in every order. Refuted with multinomial variables, which overwrite the shared uniform values in place."
  },
  {
   "property": "C18",
   "status": "proved",
   "theorems": [
    "C18_empirical",
    "C18_coupled",
    "C18_together"
   ],
   "note": "Every raw sample, size and uniform value in [0,1)."
  },
  {
   "property": "C19",
   "status": "proved",
   "theorems": [
    "C19_set",
    "C19_subset"
   ],
   "note": "Every order of the names; the sub-matrix is transposed by the code, which is the same for symmetric matrices."
  },
  {
   "property": "C20",
   "status": "proved",
   "theorems": [
    "C20_add",
    "C20_history",
    "C20_sizes"
   ],
   "note": "Histories of additions including failing ones; sizes for every method, set and generator."
  },
  {
   "property": "C21",
   "status": "partial",
   "theorems": [
    "C21_normal_std",
    "C21_normal_cov",
    "C21_lognormal_partial",
    "C21_lognormal_upper_partial",
    "C21_uniform",
    "C21_deterministic",
    "C21_twice",
    "C21_shape",
    "C21_supported",
    "C21_multilinear_refuted"
   ],
   "note": "Normal, uniform and deterministic variables with any limits; lognormal without limits or with a positive lower one (otherwise the implicit lower limit is not scaled, stated exactly). Refuted for the points of a multilinear CDF."
  },
  {
   "property": "C22",
   "status": "partial",
   "theorems": [
    "C22_accepted_partial",
    "C22_close_points_refuted",
    "C22_inverse"
   ],
   "note": "Inverse, monotone and range for every accepted variable. Refuted: valid cdfs with points closer than 1e-8 are rejected."
  },
  {
   "property": "C23",
   "status": "proved",
   "theorems": [
    "C23_bounds",
    "C23_zero",
    "C23_monotone",
    "C23_curve",
    "C23_table",
    "C23_methods"
   ],
   "note": "Over the reals; the scatter is any real, so every sampled scatter is covered."
  },
  {
   "property": "C24",
   "status": "partial",
   "theorems": [
    "C24_own",
    "C24_all",
    "C24_rows",
    "C24_accepted",
    "C24_inherited_partial",
    "C24_inherited_refuted"
   ],
   "note": "Own settings, ALL settings and acceptance proved. A limit inherited from ALL is converted with both units (refutation given); inherited limits proved correct when the own unit has factor 1."
  },
  {
   "property": "C25",
   "status": "proved",
   "theorems": [
    "C25_fitted",
    "C25_filter"
   ],
   "note": ""
  },
  {
   "property": "C26",
   "status": "partial",
   "theorems": [
    "C26_clone_partial",
    "C26_duplicates",
    "C26_units_refuted",
    "C26_error_refuted",
    "C26_collision_refuted"
   ],
   "note": "Proved when every column has a unit. Units are matched by position, so a column without a unit breaks or misplaces them, and a target equal to another column is accepted (refutations given)."
  },
  {
   "property": "C27",
   "status": "partial",
   "theorems": [
    "C27_partition",
    "C27_single_partial",
    "C27_expression_partial",
    "C27_direction_zero_refuted",
    "C27_repeated_refuted"
   ],
   "note": "Proved for all components, groups and samples except directional groups in direction 0 and expressions with two terms standing for the same demand; both exceptions refuted."
  },
  {
   "property": "C28",
   "status": "partial",
   "theorems": [
    "C28_present_partial",
    "C28_location",
    "C28_direction_zero_refuted",
    "C28_check_refuted"
   ],
   "note": "A missing type or location is a ValueError; a missing direction is a KeyError later on; a directional group in direction 0 silently uses other demands (refutations given)."
  },
  {
   "property": "C29",
   "status": "proved",
   "theorems": [
    "C29_terminates",
    "C29_cover",
    "C29_limit",
    "C29_numbered",
    "C29_ordered",
    "C29_greedy"
   ],
   "note": ""
  },
  {
   "property": "C30",
   "status": "partial",
   "theorems": [
    "C30_shape",
    "C30_state",
    "C30_highest_partial",
    "C30_last_seen",
    "C30_last_seen_exists",
    "C30_highest_refuted",
    "C30_independent_refuted"
   ],
   "note": "Zero iff nothing exceeded, and otherwise the state of an exceeded limit state of that block, for all inputs. Which one, for all inputs: that which appears last among the labels of all blocks (C30_last_seen, C30_last_seen_exists). It is the highest exceeded limit state when no component of the batch skips a limit state number (C30_highest_partial); refuted in general."
  },
  {
   "property": "C31",
   "status": "partial",
   "theorems": [
    "C31_partial",
    "C31_refuted"
   ],
   "note": "Full pipeline over batches: for any two batch sizes the run succeeds for both or neither and gives the same state for every block and realization, when no component of the asset lacks a limit state number that others have (gapless). The unrestricted claim is refuted with a full run at sizes 1 and 2 (C31_refuted)."
  },
  {
   "property": "C32",
   "status": "proved",
   "theorems": [
    "C32_total",
    "C32_conservation",
    "C32_cell",
    "C32_bounds",
    "C32_columns"
   ],
   "note": ""
  },
  {
   "property": "C33",
   "status": "proved",
   "theorems": [
    "C33_single",
    "C33_sequence",
    "C33_frame",
    "C33_accepted",
    "C33_order_irrelevant",
    "C33_underscore_refuted"
   ],
   "note": "Single entries, sequencing, frame, acceptance and location order. Component names containing an underscore are cut (refutation given)."
  },
  {
   "property": "C34",
   "status": "partial",
   "theorems": [
    "C34_order_partial",
    "C34_order_refuted"
   ],
   "note": "Holds when all numbers have equally many digits; refuted otherwise (10_ runs before 2_)."
  },
  {
   "property": "C35",
   "status": "proved",
   "theorems": [
    "C35_fema_p58",
    "C35_exclusive"
   ],
   "note": ""
  },
  {
   "property": "C36",
   "status": "proved",
   "theorems": [
    "C36_consecutive"
   ],
   "note": ""
  },
  {
   "property": "C37",
   "status": "partial",
   "theorems": [
    "C37_damage",
    "C37_loss_cells",
    "C37_loss_partial",
    "C37_loss_refuted"
   ],
   "note": "Proved for damage parameters, any list of sources and calls. For losses every cell is characterised (first filled cell over all definitions); the first definition wins only if it has no gaps that later ones fill (C37_loss_partial), refuted otherwise: a second damage state is taken from another file."
  },
  {
   "property": "C38",
   "status": "partial",
   "theorems": [
    "C38_syntax",
    "C38_applied_partial",
    "C38_operation",
    "C38_families_refuted",
    "C38_short_form_refuted"
   ],
   "note": "Syntax, lookup and arithmetic proved; families other than normal, lognormal and deterministic are silently not scaled, and the documented short form is rejected (refutations given)."
  },
  {
   "property": "C39",
   "status": "proved",
   "theorems": [
    "C39_distribution",
    "C39_accepted"
   ],
   "note": ""
  },
  {
   "property": "C40",
   "status": "partial",
   "theorems": [
    "C40_partial",
    "C40_refuted"
   ],
   "note": "The exclusive tables are computed but not used: refuted on a full aggregation. What make_replacement_exclusive returns is characterised completely (C40_partial)."
  },
  {
   "property": "C41",
   "status": "partial",
   "theorems": [
    "C41_partial",
    "C41_parallel",
    "C41_flags",
    "C41_accepted",
    "C41_ratio_required_refuted"
   ],
   "note": "Complete characterisation of every reported value, of the flags and of acceptance, for Cost-like names and samples without a column named threshold_exceedance. A registered decision variable without a ratio makes it fail (refutation given)."
  },
  {
   "property": "C42",
   "status": "partial",
   "theorems": [
    "C42_partial",
    "C42_parallel_le_sequential",
    "C42_accepted",
    "C42_refuted"
   ],
   "note": "Complete characterisation of every reported value (iff), parallel <= sequential, and acceptance, for Cost-like names. Other names fail (refutation given)."
  },
  {
   "property": "C43",
   "status": "partial",
   "theorems": [
    "C43_partial",
    "C43_refuted"
   ],
   "note": "Any sequence of aggregations with any settings: answers and values are unaffected. The labels of the stored loss function sample change when both samples exist (refutation given)."
  },
  {
   "property": "C44",
   "status": "proved",
   "theorems": [
    "C44_effect",
    "C44_factor_unique",
    "C44_rejected"
   ],
   "note": "Every usable table and both samples; everything else is rejected without effect. The csv file is taken as parsed by pandas."
  },
  {
   "property": "C45",
   "status": "proved",
   "theorems": [
    "C45_on_curve",
    "C45_tabulated",
    "C45_outside",
    "C45_bounded",
    "C45_monotone"
   ],
   "note": "Every well formed table and every quantity; the curve is specified independently and determines the value."
  },
  {
   "property": "C46",
   "status": "partial",
   "theorems": [
    "C46_loss_map",
    "C46_no_user_map",
    "C46_accepted_partial",
    "C46_name_refuted",
    "C46_mixed_refuted"
   ],
   "note": "Complete characterisation for labels that are component names or DMG-prefixed names, for any order of the components. Refuted: a component with DMG in its name, and maps in which only some labels are prefixed."
  },
  {
   "property": "C47",
   "status": "partial",
   "theorems": [
    "C47_losses",
    "C47_zero",
    "C47_nonnegative",
    "C47_scatter",
    "C47_undamaged",
    "C47_accepted_partial",
    "C47_floors_refuted",
    "C47_mixed_refuted",
    "C47_deterministic_refuted",
    "C47_unrealized_refuted",
    "C47_pooled_states_refuted"
   ],
   "note": "Complete characterisation of labels and values, zero and sign, the random variables, and a sufficient condition for success, when floors are pooled. Refuted: without pooling floors nothing is ever obtained; a mixture of random and fixed damage states, a deterministic family, and (with damage states pooled) an unrealized damage state fail; pooled damage states count undamaged units."
  },
  {
   "property": "C48",
   "status": "partial",
   "theorems": [
    "C48_losses_partial",
    "C48_blocks",
    "C48_outside",
    "C48_mapped_refuted",
    "C48_mixed_refuted",
    "C48_extra_column_refuted"
   ],
   "note": "Complete characterisation of labels and values when components are mapped to themselves, equality of the outcome for any numbers of blocks without distributions, no extrapolation. Refuted: a component mapped to the loss function of another one, a component with a loss function for one decision variable and damage-state parameters for another, and a lognormal distribution beside a further parameter column all make the call fail."
  },
  {
   "property": "C49",
   "status": "proved",
   "theorems": [
    "C49_missing"
   ],
   "note": "Any sources and previously loaded parameters; usable means that the first filled Incomplete cell is not 1."
  },
  {
   "property": "C50",
   "status": "partial",
   "theorems": [
    "C50_rejected",
    "C50_error",
    "C50_converted_partial",
    "C50_reported",
    "C50_files_refuted"
   ],
   "note": "Inconsistency within a file is rejected (iff for the error), rows are converted with their own units, the reported unit is that of a row. Refuted: two files with different units for a decision variable are accepted."
  },
  {
   "property": "C51",
   "status": "partial",
   "theorems": [
    "C51_partial",
    "C51_unknown",
    "C51_refuted"
   ],
   "note": "Complete characterisation of the combined table when the set happens to be iterated in table order or the table is symmetric; refuted for an order of iteration that swaps the arguments. C51_unknown: combinations for a decision variable that is not calculated are rejected."
  },
  {
   "property": "C52",
   "status": "partial",
   "theorems": [
    "C52_entries",
    "C52_given",
    "C52_fema",
    "C52_cost",
    "C52_time_of_occupancy",
    "C52_time_otherwise",
    "C52_removed_refuted",
    "C52_reported_refuted",
    "C52_blank_partial"
   ],
   "note": "C52_entries, C52_given, C52_fema, C52_cost, C52_time_of_occupancy, C52_time_otherwise: configured values and defaults. Refuted for carbon and energy without a value and without a default: the removal acts on a local name, the blank entry stays (C52_removed_refuted, C52_blank_partial) and hides the missing consequence from the loss model (C52_reported_refuted)."
  },
  {
   "property": "C53",
   "status": "partial",
   "theorems": [
    "C53_no_cache",
    "C53_any_history_partial",
    "C53_orderly_partial",
    "C53_succeeds",
    "C53_stale_record_refuted",
    "C53_interrupted_refuted",
    "C53_incomplete_comparison_refuted",
    "C53_release",
    "C53_branch_refuted"
   ],
   "note": "Any history (complete, failed or interrupted updates, with or without the record, edited files), with immutable commits, a collision-free hash and complete comparisons as hypotheses. Refuted: going back to the recorded commit after an update without the record or an interrupted one does nothing; a comparison that omits a changed file (more than 300 files, diverged branches) leaves it stale; a branch name on record hides its later commits."
  },
  {
   "property": "C54",
   "status": "partial",
   "theorems": [
    "C54_repeated_partial",
    "C54_refuted"
   ],
   "note": "Any number of attempts interrupted at any character written, repeated with the same setting of the record. Refuted when an interrupted update without the record is repeated with it."
  },
  {
   "property": "C55",
   "status": "partial",
   "theorems": [
    "C55_refuted",
    "C55_not_started_partial"
   ],
   "note": "Refuted for every crash point after the first write of the first download: the data are taken for installed and no import repairs them. What holds: a download that has written nothing is repeated."
  },
  {
   "property": "C56",
   "status": "proved",
   "theorems": [
    "C56_once",
    "C56_schedule",
    "C56_complete",
    "C56_local"
   ],
   "note": "Any number and size of chunks, any order of the buildings in them, any interleaving of the writes and any listing. The results of a chunk are an argument; identifiers are distinct and not negative."
  },
  {
   "property": "C57",
   "status": "partial",
   "theorems": [
    "C57_sorted_partial",
    "C57_refuted"
   ],
   "note": "Refuted for every order of the measures that is not alphabetical. For alphabetical orders: the weighted means at the neighbours, realization by realization, under the right name."
  },
  {
   "property": "C58",
   "status": "proved",
   "theorems": [
    "C58_meaning",
    "C58_accepted",
    "C58_rejected"
   ],
   "note": "Every text: accepted exactly when every part is blank or denotes identifiers, the result is exactly what the parts denote, strictly increasing."
  },
  {
   "property": "C59",
   "status": "proved",
   "theorems": [
    "C59_weights",
    "C59_laws",
    "C59_schemes",
    "C59_between",
    "C59_at_source",
    "C59_resampled",
    "C59_resampled_single",
    "C59_between_single"
   ],
   "note": "Exact arithmetic; the neighbour search and the random choice of neighbours are arguments. Also: resampled values are those of the drawn neighbour, and the error at a source."
  },
  {
   "property": "C60",
   "status": "proved",
   "theorems": [
    "C60_governing",
    "C60_defined",
    "C60_missing"
   ],
   "note": "For non-negative quantities and non-negative numeric damage states: each component and location once, the governing state, missing only when everything is missing; defined exactly when all damage states are numbers."
  },
  {
   "property": "C61",
   "status": "partial",
   "theorems": [
    "C61_own_partial",
    "C61_repeated",
    "C61_harmless_partial",
    "C61_refuted",
    "C61_settings_refuted"
   ],
   "note": "The faithful model violates it: the module-level output dictionaries are changed by runs. C61_refuted: after one regional run without losses no later regional run saves losses, whatever runs in between; C61_settings_refuted: default settings leak. Proved: runs with their own outputs and settings are independent of any history (C61_own_partial), repeating one run is stable (C61_repeated), histories of harmless runs have no effect (C61_harmless_partial)."
  },
  {
   "property": "C62",
   "status": "proved",
   "theorems": [
    "C62_groups",
    "C62_total",
    "C62_losses",
    "C62_colocated",
    "C62_assets",
    "C62_asset_units"
   ],
   "note": "Any set of levels, any selection of groups; the saved and grouped losses per decision variable; aggregation of colocated components makes no difference."
  },
  {
   "property": "C63",
   "status": "proved",
   "theorems": [
    "C63_directory",
    "C63_others"
   ],
   "note": "The complete content of the output directory after a run, for every file name."
  },
  {
   "property": "C64",
   "status": "proved",
   "theorems": [
    "C64_complete"
   ],
   "note": ""
  },
  {
   "property": "C65",
   "status": "proved",
   "theorems": [
    "C65_anchors",
    "C65_first_missing_refuted"
   ],
   "note": "Holds for every accepted batch; a component whose first limit state has no capacity is rejected (shown)."
  },
  {
   "property": "C66",
   "status": "partial",
   "theorems": [
    "C66_blocks_partial",
    "C66_multilinear_refuted"
   ],
   "note": "Proved for all families but multilinear_CDF, which works with one block only (refutation given)."
  },
  {
   "property": "C67",
   "status": "partial",
   "theorems": [
    "C67_save_partial",
    "C67_refuted"
   ],
   "note": "Saving rejects; loading does not (refutation given)."
  },
  {
   "property": "C68",
   "status": "proved",
   "theorems": [
    "C68_expand",
    "C68_length",
    "C68_residual"
   ],
   "note": ""
  },
  {
   "property": "C69",
   "status": "partial",
   "theorems": [
    "C69_partial",
    "C69_two_refuted",
    "C69_event_refuted"
   ],
   "note": "One ERROR column, three header levels. Several ERROR columns or an event id in the header: refuted."
  },
  {
   "property": "C70",
   "status": "partial",
   "theorems": [
    "C70_partial",
    "C70_refuted"
   ],
   "note": "Holds for peak drifts without unit or with factor 1; refuted otherwise."
  },
  {
   "property": "C71",
   "status": "proved",
   "theorems": [
    "C71_accepted",
    "C71_text"
   ],
   "note": ""
  },
  {
   "property": "C72",
   "status": "partial",
   "theorems": [
    "C72_damage_partial",
    "C72_incomplete_refuted",
    "C72_loss_refuted"
   ],
   "note": "Holds for damage parameters unless an incomplete definition is followed by a complete one in a later call (refuted then). Refuted for losses: parameters of an earlier call are converted again."
  },
  {
   "property": "C73",
   "status": "proved",
   "theorems": [
    "C73_missing_damage"
   ],
   "note": "Any sources and previously loaded parameters."
  },
  {
   "property": "C74",
   "status": "partial",
   "theorems": [
    "C74_columns_partial",
    "C74_hyphen",
    "C74_basement_refuted"
   ],
   "note": "Any set of labels without hyphens; with any hyphen the sample always fails (basement locations)."
  },
  {
   "property": "C75",
   "status": "partial",
   "theorems": [
    "C75_stale_json_refuted",
    "C75_fresh_csv_partial"
   ],
   "note": "C75_stale_json_refuted: JSON files of results that are not requested now survive every run, because only the CSV/ZIP names are cleaned. C75_fresh_csv_partial: CSV/ZIP results are always of this run."
  },
  {
   "property": "C76",
   "status": "partial",
   "theorems": [
    "C76_same_partial",
    "C76_refuted"
   ],
   "note": "Refuted whenever the buildings of a chunk ask for different variables: those of the last one are used for all."
  },
  {
   "property": "C77",
   "status": "partial",
   "theorems": [
    "C77_state_partial",
    "C77_refuted"
   ],
   "note": "Holds for buildings with one component. Refuted: the states of several components are added."
  },
  {
   "property": "C78",
   "status": "partial",
   "theorems": [
    "C78_inventory_partial",
    "C78_missing",
    "C78_refuted"
   ],
   "note": "Holds for filters that name at least one building. Refuted: a filter of blanks and commas keeps all buildings."
  },
  {
   "property": "C79",
   "status": "partial",
   "theorems": [
    "C79_automatic",
    "C79_user_partial",
    "C79_old_format_partial",
    "C79_override_refuted",
    "C79_old_format_refuted"
   ],
   "note": "C79_automatic is complete. For a user defined map the entries of collapse and irreparable damage are overwritten (C79_override_refuted), and in the old format without DMG-collapse they get an empty label (C79_old_format_refuted)."
  },
  {
   "property": "C80",
   "status": "partial",
   "theorems": [
    "C80_fema",
    "C80_hazus_partial",
    "C80_user",
    "C80_every_component_refuted",
    "C80_underscore_refuted"
   ],
   "note": "C80_fema, C80_user are complete; C80_hazus_partial needs component names without underscores. Refuted: with several components of the class only the last can cause collapse, and a name with an underscore loses the rule."
  },
  {
   "property": "C81",
   "status": "proved",
   "theorems": [
    "C81_kept",
    "C81_applicable"
   ],
   "note": "Demand columns have three levels."
  },
  {
   "property": "C82",
   "status": "partial",
   "theorems": [
    "C82_unit",
    "C82_loaded",
    "C82_every_type_refuted"
   ],
   "note": "C82_unit, C82_loaded. Refuted: e.g. EDR, accepted by fragilities, gets no unit."
  },
  {
   "property": "C83",
   "status": "partial",
   "theorems": [
    "C83_users_rows",
    "C83_support",
    "C83_places_partial",
    "C83_drift_places_partial",
    "C83_places_refuted",
    "C83_reserved_refuted",
    "C83_one_input"
   ],
   "note": "C83_support, C83_users_rows, C83_one_input; places exact on a full grid. Refuted: otherwise components at places without demands; rows of the user with a reserved name are overwritten."
  },
  {
   "property": "C84",
   "status": "partial",
   "theorems": [
    "C84_precedence_partial",
    "C84_own_file",
    "C84_placeholder",
    "C84_named_refuted"
   ],
   "note": "C84_precedence_partial, C84_own_file, C84_placeholder. Refuted: a named database that does not exist is skipped."
  },
  {
   "property": "C85",
   "status": "partial",
   "theorems": [
    "C85_rows",
    "C85_known_types",
    "C85_sample_refuted"
   ],
   "note": "C85_rows, C85_known_types. Refuted: a collapse fragility cannot be used with a component sample (assertion on the marginals)."
  },
  {
   "property": "C86",
   "status": "partial",
   "theorems": [
    "C86_inferred",
    "C86_constant",
    "C86_again_refuted",
    "C86_used_up"
   ],
   "note": "C86_inferred, C86_constant. Refuted: the method is popped from the configuration, so the next inference with it fails (C86_used_up: always)."
  },
  {
   "property": "C87",
   "status": "partial",
   "theorems": [
    "C87_wind_first_partial",
    "C87_roles_refuted",
    "C87_single_refuted"
   ],
   "note": "Holds if wind is first and flood second in the asset and both are mapped. Refuted: otherwise roles are swapped or a component is combined with collapse."
  },
  {
   "property": "C88",
   "status": "proved",
   "theorems": [
    "C88_coupled"
   ],
   "note": "C88_coupled, from calibration to generation, for every limit and size."
  },
  {
   "property": "C89",
   "status": "partial",
   "theorems": [
    "C89_round_trip_partial",
    "C89_calibrated_partial",
    "C89_cloned_refuted",
    "C89_units_refuted",
    "C89_mismatch"
   ],
   "note": "C89_round_trip_partial and C89_calibrated_partial (calibrated models meet its hypotheses); C89_mismatch: units of other labels are never used. Refuted: after a generation with clones, and with demands without unit, saving fails and leaves some of the files. Missing: parameters that are curves."
  },
  {
   "property": "C90",
   "status": "partial",
   "theorems": [
    "C90_own_distribution_partial",
    "C90_hyphen_refuted"
   ],
   "note": "C90_own_distribution_partial for models with a correlation table. Refuted: with a hyphen in a location or direction every generation fails."
  },
  {
   "property": "C91",
   "status": "partial",
   "theorems": [
    "C91_added_partial",
    "C91_normal_refuted",
    "C91_units_refuted"
   ],
   "note": "C91_added_partial: the second parameter. Refuted: normal demands (it is a coefficient of variation) and units of normal_std."
  },
  {
   "property": "C92",
   "status": "partial",
   "theorems": [
    "C92_history_partial",
    "C92_saved_refuted",
    "C92_loaded_refuted",
    "C92_tables_refuted"
   ],
   "note": "C92_history_partial: calibration and generation. Refuted: files with data of earlier calibrations, loading without data, tables of data ignored."
  },
  {
   "property": "C93",
   "status": "partial",
   "theorems": [
    "C93_again_partial",
    "C93_cloning_refuted"
   ],
   "note": "C93_again_partial without clones. Refuted with clones: units move to other demands."
  },
  {
   "property": "C94",
   "status": "partial",
   "theorems": [
    "C94_moments_partial",
    "C94_integers_refuted"
   ],
   "note": "C94_moments_partial for floating point samples that vary (and a mean that is not almost zero if it is a divisor). Refuted for arrays of integers: their logarithms are truncated."
  },
  {
   "property": "C95",
   "status": "partial",
   "theorems": [
    "C95_sample_correlations",
    "C95_coefficients_partial",
    "C95_limits_refuted",
    "C95_fallback_partial"
   ],
   "note": "C95_sample_correlations (no limits, complete), C95_coefficients_partial (any limits). The decompositions are assumed to be correct (linear_algebra). With limits the unit diagonal and semidefiniteness are refuted (C95_limits_refuted, for every correct singular value decomposition)."
  },
  {
   "property": "C96",
   "status": "partial",
   "theorems": [
    "C96_units_partial"
   ],
   "note": "C96_units_partial without limits. Missing: with limits (the minimization is an argument)."
  },
  {
   "property": "C97",
   "status": "partial",
   "theorems": [
    "C97_arguments_partial",
    "C97_overwritten_refuted"
   ],
   "note": "C97_arguments_partial for lists and for families without logarithm. Refuted: an array with a lognormal demand is overwritten and the next fit differs."
  },
  {
   "property": "C98",
   "status": "partial",
   "theorems": [
    "C98_alone_partial",
    "C98_parity_partial",
    "C98_widest_partial",
    "C98_position_refuted"
   ],
   "note": "C98_alone_partial without limits; C98_parity_partial with limits at positions of the same parity. Refuted with limits: two identical demands in one call get different parameters because the bounds of the search are indexed by position."
  },
  {
   "property": "C99",
   "status": "partial",
   "theorems": [
    "C99_inside_partial",
    "C99_negative_refuted",
    "C99_integers_refuted"
   ],
   "note": "C99_inside_partial for floating point arrays and upper limits that are not negative. Refuted: a negative limit of a lognormal demand is dropped; integer samples lose the excess over the limit."
  },
  {
   "property": "C100",
   "status": "partial",
   "theorems": [
    "C100_components_partial",
    "C100_blocks_refuted",
    "C100_uid",
    "C100_levels"
   ],
   "note": "Quantities, units and the file itself survive; the number of blocks does not (C100_blocks_refuted): after loading every performance group has one block."
  },
  {
   "property": "C101",
   "status": "partial",
   "theorems": [
    "C101_damage",
    "C101_levels",
    "C101_foreign_refuted"
   ],
   "note": "C101_damage covers every sample whose components have units. Refuted: a sample loaded into an assessment whose asset does not list a component of it can no longer be saved (C101_foreign_refuted)."
  },
  {
   "property": "C102",
   "status": "partial",
   "theorems": [
    "C102_losses_partial",
    "C102_orphan_refuted",
    "C102_uid_refuted"
   ],
   "note": "Proved when no parameter names a pair of decision variable and component of which both occur, but not together; otherwise saving raises a KeyError (C102_orphan_refuted). Samples without identifiers are meant to be accepted but raise (C102_uid_refuted)."
  },
  {
   "property": "C103",
   "status": "partial",
   "theorems": [
    "C103_tables",
    "C103_put_back_partial",
    "C103_put_back_refuted"
   ],
   "note": "Tables with units come back unchanged. Put back without units, as regional runs do, the sample is divided by the factors of its units (C103_put_back_partial, C103_put_back_refuted): unchanged only when all factors are one."
  },
  {
   "property": "C104",
   "status": "proved",
   "theorems": [
    "C104_samples"
   ],
   "note": "The texts of numbers read back as the number (hypothesis reads_back); labels have distinct parts, none named Units and none empty before the end."
  },
  {
   "property": "C105",
   "status": "partial",
   "theorems": [
    "C105_statistics_partial",
    "C105_text_refuted"
   ],
   "note": "Proved for statistics without units. With units the row of units makes pandas read the columns as text, so every statistic is written as a text (C105_text_refuted)."
  },
  {
   "property": "C106",
   "status": "proved",
   "theorems": [
    "C106_flags",
    "C106_collapsed"
   ],
   "note": "Missing quantities count as zero, as in the sums of pandas."
  },
  {
   "property": "C107",
   "status": "proved",
   "theorems": [
    "C107_statistics",
    "C107_order",
    "C107_rank",
    "C107_realizations",
    "C107_units"
   ],
   "note": "Square roots and deviations of logarithms are functions that are arguments; statistics are those of exact arithmetic."
  },
  {
   "property": "C108",
   "status": "partial",
   "theorems": [
    "C108_chunk",
    "C108_amounts",
    "C108_own_partial",
    "C108_accepted",
    "C108_refuted"
   ],
   "note": "Exact for components and amounts; the directions are the own ones when a component has the same directions in all buildings (C108_own_partial). Refuted otherwise: directions spread to other buildings of the chunk, a component listed twice counts once, differing amounts fail the chunk, an uncertain amount is taken as fixed (C108_refuted). What auto-population returns is an argument."
  },
  {
   "property": "C109",
   "status": "partial",
   "theorems": [
    "C109_own",
    "C109_local",
    "C109_accepted",
    "C109_refuted"
   ],
   "note": "Totals, locality and acceptance are proved for every loss calculation that works place by place. Refuted: buildings without an occupancy class are left out without a message, and a class without damage fails the chunk (C109_refuted)."
  },
  {
   "property": "C110",
   "status": "partial",
   "theorems": [
    "C110_methods",
    "C110_unknown",
    "C110_sources",
    "C110_again",
    "C110_legacy_partial",
    "C110_legacy_refuted",
    "C110_consequences",
    "C110_consequences_refuted",
    "C110_components"
   ],
   "note": "Methods, other sources and repetition are proved. Refuted for file names of earlier versions: the water and power databases name methods the library does not have and two of four recognised beginnings have no names (C110_legacy_refuted); such names are never accepted for consequences (C110_consequences_refuted)."
  },
  {
   "property": "C111",
   "status": "partial",
   "theorems": [
    "C111_history",
    "C111_new_partial",
    "C111_again",
    "C111_damage_refuted",
    "C111_loss_refuted"
   ],
   "note": "C111_history gives the definition in force after every sequence of calculations; C111_again: repetition changes nothing for damage; C111_new_partial: the own sources count when nothing is in force for the components. Refuted otherwise: parameters of an earlier calculation win (C111_damage_refuted), and loss parameters are converted again (C111_loss_refuted)."
  },
  {
   "property": "C112",
   "status": "partial",
   "theorems": [
    "C112_collapse",
    "C112_residual",
    "C112_nothing",
    "C112_place_refuted",
    "C112_documented_refuted"
   ],
   "note": "Without a place in the configuration the collapse demand is added as it should be, residual drifts as by the separate call. Refuted: the place is ignored (C112_place_refuted), configurations with the documented keys are rejected (C112_documented_refuted)."
  },
  {
   "property": "C113",
   "status": "partial",
   "theorems": [
    "C113_best",
    "C113_exact",
    "C113_lower_refuted",
    "C113_unknown"
   ],
   "note": "C113_best, C113_exact with the median and a higher percentile; C113_unknown; refuted when the median is the highest percentile (C113_lower_refuted: the deviation is NaN). The search is assumed not to end above its start and to stay at a point where the error is NaN; the standard normal quantiles are an argument."
  },
  {
   "property": "C114",
   "status": "partial",
   "theorems": [
    "C114_isolated",
    "C114_schedules",
    "C114_reseed",
    "C114_more_variables",
    "C114_lhs_refuted",
    "C114_later_refuted"
   ],
   "note": "C114_isolated, C114_schedules, C114_reseed for all interleavings; C114_more_variables for LHS_midpoint and MonteCarlo; refuted for LHS (C114_lhs_refuted) and for samples generated later (C114_later_refuted). The generator is an argument; assessments without a seed are only required not to disturb others."
  },
  {
   "property": "C115",
   "status": "partial",
   "theorems": [
    "C115_own",
    "C115_auto",
    "C115_databases",
    "C115_user_models",
    "C115_outputs",
    "C115_complete",
    "C115_skip",
    "C115_methods",
    "C115_options_refuted",
    "C115_arguments_refuted",
    "C115_script_refuted",
    "C115_skip_refuted",
    "C115_sample_file_refuted",
    "C115_demand_file_refuted",
    "C115_collapse_refuted",
    "C115_losses_refuted",
    "C115_information_refuted"
   ],
   "note": "C115_own, C115_outputs (file with DL), C115_auto, C115_methods, C115_databases, C115_user_models, C115_skip (scripts), C115_complete, for all files, calls and scripts. Refuted: the options of a user lose to those of the script (C115_options_refuted), arguments without effect (C115_arguments_refuted, C115_script_refuted), a skip asked for by two scripts (C115_skip_refuted), component samples (C115_sample_file_refuted), the default demand file (C115_demand_file_refuted), the dispersion of a collapse fragility (C115_collapse_refuted), runs without losses (C115_losses_refuted), the general information of scripts (C115_information_refuted). int, str and the scripts are arguments; of the schema, the keywords it uses."
  },
  {
   "property": "C116",
   "status": "partial",
   "theorems": [
    "C116_monotone",
    "C116_damaged",
    "C116_seen_order",
    "C116_refuted"
   ],
   "note": "C116_monotone when no component skips a limit state that another one has (gapless, as in C30_highest_partial). False otherwise (C116_refuted): next to a component with limit states 1 and 3, more demand can lower the state of another. Without that condition: damage never disappears (C116_damaged), and the state is not lower if the states follow the order in which the limit states appear among all labels (C116_seen_order)."
  },
  {
   "property": "C117",
   "status": "proved",
   "theorems": [
    "C117_states",
    "C117_process",
    "C117_quantities",
    "C117_columns_refuted"
   ],
   "note": "C117_states (demands, batches, limit states), C117_process and C117_quantities, for rows of runs of different sizes. The library that evaluates demand expressions is assumed to work on each realization alone. C117_columns_refuted: which columns a table of quantities has does depend on the other realizations, the amounts do not."
  },
  {
   "property": "C118",
   "status": "proved",
   "theorems": [
    "C118_states",
    "C118_functions",
    "C118_aggregate",
    "C118_aggregate_plain",
    "C118_functions_refuted",
    "C118_states_refuted"
   ],
   "note": "C118_states (both runs succeed or fail alike), C118_functions, C118_aggregate and C118_aggregate_plain (if both runs succeed). The library that evaluates demand expressions is assumed to work on each realization alone. C118_functions_refuted: one demand outside the range stops the calculation for all realizations. C118_states_refuted: an undamaged realization has zero losses beside a damaged one and none on its own."
  },
  {
   "property": "C119",
   "status": "partial",
   "theorems": [
    "C119_blocks",
    "C119_history_partial",
    "C119_states",
    "C119_functions",
    "C119_sizes",
    "C119_stale_refuted",
    "C119_failed_refuted"
   ],
   "note": "C119_states (losses from damage states, any history), C119_history_partial (all losses, if a loss function is in use), C119_functions (origin of the losses from loss functions), C119_sizes, C119_blocks. Refuted: when no loss function applies any more the old losses stay and are aggregated (C119_stale_refuted), and a calculation that fails leaves losses of two calculations (C119_failed_refuted)."
  },
  {
   "property": "C120",
   "status": "partial",
   "theorems": [
    "C120_damage_partial",
    "C120_quantities",
    "C120_states",
    "C120_functions",
    "C120_damage_refuted",
    "C120_failure_refuted"
   ],
   "note": "C120_damage_partial (limit states without gaps), C120_quantities, C120_states, C120_functions. The draws of the component are taken to be the same. Refuted: a component with gaps in its limit states changes the damage states of others (C120_damage_refuted); unusable parameters of another damaged component leave this one without losses (C120_failure_refuted). Missing: damage processes, which are meant to connect components (C33_frame covers components that are not targets)."
  },
  {
   "property": "C121",
   "status": "partial",
   "theorems": [
    "C121_reach",
    "C121_attached",
    "C121_order",
    "C121_beginning",
    "C121_help",
    "C121_unknown",
    "C121_run",
    "C121_coupled_refuted",
    "C121_log_refuted",
    "C121_format_refuted"
   ],
   "note": "Reach, defaults, last value, attached values, order, unambiguous beginnings, unknown options, requests for help and what the run makes of the options are proved for all command lines. Refuted: --coupled_EDP without a value has no effect, --log_file has no effect at all, and --output_format with the documented upper case names gives no output format."
  },
  {
   "property": "C122",
   "status": "partial",
   "theorems": [
    "C122_commit",
    "C122_version",
    "C122_rejected",
    "C122_import",
    "C122_full_sha_refuted",
    "C122_example_refuted",
    "C122_import_refuted"
   ],
   "note": "Commits of seven hexadecimal digits, latest and versions are proved, and that anything else is rejected. Refuted: full names of commits and the documented example \"commit def567\" are rejected; with options before the action the import checks (and may download) the data."
  },
  {
   "property": "C123",
   "status": "partial",
   "theorems": [
    "C123_buildings_partial",
    "C123_facilities_partial",
    "C123_fema",
    "C123_none",
    "C123_every_component_refuted"
   ],
   "note": "Proved for FEMA P-58 without conditions on names, and for the Hazus processes for names without underscores. Refuted: of several structural components only the last one can cause collapse."
  },
  {
   "property": "C124",
   "status": "partial",
   "theorems": [
    "C124_rows_value",
    "C124_rows_text",
    "C124_columns_value",
    "C124_columns_accepted",
    "C124_labels",
    "C124_without_units",
    "C124_same_texts",
    "C124_rows_value_refuted",
    "C124_same_numbers_refuted",
    "C124_text_column_refuted"
   ],
   "note": "proved for columns of numbers, for columns with a text, for both orientations, for the labels that come back and for equal texts in memory and in a file; refuted for numbers in a column that also holds a text (not converted, C124_rows_value_refuted; different in a file and in memory, C124_same_numbers_refuted) and for tables with variables in columns, units and a column of text (TypeError, C124_text_column_refuted). Reading texts as numbers is an argument."
  },
  {
   "property": "C125",
   "status": "partial",
   "theorems": [
    "C125_log_partial",
    "C125_kept_partial",
    "C125_files",
    "C125_warnings_partial",
    "C125_screen",
    "C125_warnings_refuted",
    "C125_own_refuted",
    "C125_shared_refuted"
   ],
   "note": "Contents of the log file, of the file with the warnings and of the screen for all histories, for files that no other logger of the process uses. Refuted: a gap in a warning as wide as the indentation is closed in the file (C125_warnings_refuted); the log of a finished run receives the exceptions of later ones (C125_own_refuted); a second run with the same log file erases the first log (C125_shared_refuted). Files are assumed writable; times are arguments."
  },
  {
   "property": "C126",
   "status": "partial",
   "theorems": [
    "C126_active",
    "C126_reported_partial",
    "C126_accepted",
    "C126_combination",
    "C126_refuted",
    "C126_history"
   ],
   "note": "Active variables (for any earlier calculations), the totals reported and the rejected combination are proved for configurations that ask for at least one variable. The totals are for names like Cost and without a combination of losses. Refuted: with every variable set to false Cost and Time are calculated and reported, or those of the previous calculation of the assessment."
  }
 ]
}
{"id": "C01", "title": "Saving and reloading a table in any units is lossless", "statement": "If a table is written with save_to_csv using a units assignment and a table of unit conversion factors whose entries are all non-zero, and read back with load_data with the same factors, every value comes back unchanged; labels without a unit are never scaled.", "quantifier": "every table, every units assignment (including labels with no unit), every factor table without zeros, both orientations", "why_tests_cant": "The round trip multiplies by 1/f and then by f for arbitrary user supplied factors and label sets; examples only cover a few units.", "anchors": ["pelicun/file_io.py:save_to_csv", "pelicun/file_io.py:load_data"]}
{"id": "C02", "title": "Unit conversion is consistent", "statement": "convert_units(v,a,b) is accepted exactly when both units are known and belong to one category; converting there and back returns v, going through an intermediate unit gives the direct result, and the conversion is linear in v.", "quantifier": "every value, every unit table with non-zero factors, every triple of units and optional category argument", "why_tests_cant": "The law is about all pairs and triples of units in a user-extensible table.", "anchors": ["pelicun/base.py:convert_units", "pelicun/base.py:parse_units"]}
{"id": "C03", "title": "A units file never yields an ambiguous unit", "statement": "Reading a units definition either fails or produces a table where each unit name has exactly one factor and one category, containing exactly the units that were defined; with a custom file only the units of that file are used.", "quantifier": "every nested units definition", "why_tests_cant": "Needs all nestings and all collisions of names between categories.", "anchors": ["pelicun/base.py:parse_units"]}
{"id": "C04", "title": "Joined column labels can be split back", "statement": "Collapsing hierarchical labels to simple 'a-b-c' labels and expanding them again returns the original labels.", "quantifier": "every list of hierarchical labels", "why_tests_cant": "Fails only for particular label contents (a '-' inside a level, ragged depth), which example based tests avoid.", "anchors": ["pelicun/base.py:convert_to_SimpleIndex", "pelicun/base.py:convert_to_MultiIndex"]}
{"id": "C05", "title": "Merging defaults never overrides the user's settings", "statement": "After merging default options into a user configuration, every setting the user gave keeps its value, every default the user omitted is present with the default value, nothing else appears, merging twice is the same as merging once, and the merge is rejected exactly when one side has a group of settings where the other has a plain value.", "quantifier": "every pair of nested configurations", "why_tests_cant": "Arbitrary nesting depth and arbitrary overlap.", "anchors": ["pelicun/base.py:update_vals", "pelicun/base.py:merge_default_config"]}
{"id": "C06", "title": "Nested read and write by path obey the laws of a map", "statement": "After update(d, path, v), get(d, path) is v; reads of paths that are neither prefixes nor extensions are unchanged; with only_if_empty_or_none a specified value is never overwritten; get of a missing path returns the default.", "quantifier": "every nested dictionary, every path, every value", "why_tests_cant": "Quantifies over all nestings and all pairs of paths.", "anchors": ["pelicun/base.py:get", "pelicun/base.py:update", "pelicun/base.py:is_unspecified"]}
{"id": "C07", "title": "Making an index unique loses nothing and always succeeds", "statement": "dedupe_index appends a uid level such that all labels are distinct, no row is lost or invented, the rows come out sorted by label, and the uids of equal labels are '0','1','2',... in order of appearance.", "quantifier": "every list of labels with any multiplicities", "why_tests_cant": "All multiplicity patterns.", "anchors": ["pelicun/base.py:dedupe_index"]}
{"id": "C08", "title": "Inverting a mapping is exact", "statement": "invert_mapping succeeds exactly when no value is claimed by two keys; then looking up a value gives the unique key that lists it, and every listed value is present.", "quantifier": "every mapping from keys to lists of values", "why_tests_cant": "All overlaps among value lists.", "anchors": ["pelicun/base.py:invert_mapping"]}
{"id": "C09", "title": "Selective scaling touches exactly the matching part of a table", "statement": "multiply_factor_multiple_levels multiplies exactly the columns (rows) that satisfy every given level condition by the factor and leaves all others untouched; no match is an error exactly when raise_missing is set; successive scalings commute.", "quantifier": "every table, every set of conditions, every factor, every sequence of scalings", "why_tests_cant": "All label tables and all sequences of operations.", "anchors": ["pelicun/base.py:multiply_factor_multiple_levels", "pelicun/model/loss_model.py:LossModel._apply_consequence_scaling"]}
{"id": "C10", "title": "Every warning is shown, and shown only once", "statement": "Over any history of adding and emitting warnings, each distinct message is printed at most once, and after an emit every message ever added has been printed.", "quantifier": "every sequence of add_warning, emit_warnings and warning calls", "why_tests_cant": "A property of unbounded histories.", "anchors": ["pelicun/base.py:Logger.add_warning", "pelicun/base.py:Logger.emit_warnings", "pelicun/base.py:Logger.warning"]}
{"id": "C11", "title": "Location and direction strings expand to exactly what they denote", "statement": "'a--b' denotes every storey from a to b, 'x,y,z' exactly the listed ones, 'all' every storey, 'top' and 'roof' the last ones, a single number itself; anything else is rejected.", "quantifier": "every location string and number of storeys", "why_tests_cant": "All strings and all ranges.", "anchors": ["pelicun/model/pelicun_model.py:PelicunModel._get_locations", "pelicun/model/pelicun_model.py:PelicunModel._get_directions"]}
{"id": "C12", "title": "Component assignments expand to one performance group per location and direction", "statement": "Each row of a component assignment contributes exactly one performance group per (location, direction) pair it denotes, with the row's quantity parameters and blocks; no two performance groups share an identifier and none is lost.", "quantifier": "every component assignment table", "why_tests_cant": "All combinations of rows with overlapping locations and directions.", "anchors": ["pelicun/model/asset_model.py:AssetModel.load_cmp_model", "pelicun/base.py:dedupe_index"]}
{"id": "C13", "title": "Latin Hypercube samples hit every stratum exactly once", "statement": "For every sample size n, the LHS and LHS_midpoint samples of each random variable have exactly one value in each interval [k/n,(k+1)/n) and all values lie in [0,1).", "quantifier": "every n, every permutation and every draw of the generator", "why_tests_cant": "Holds for all permutations and all uniform draws; rounding at the top of the range is invisible to sampling tests.", "anchors": ["pelicun/uq.py:RandomVariableRegistry.generate_sample"]}
{"id": "C14", "title": "Truncated distributions never leave their truncation limits", "statement": "For normal, lognormal and Weibull variables every sampled value lies within the truncation limits, is monotone in the underlying uniform value, and the cdf of the sampled value equals that uniform value.", "quantifier": "every parameter set, all one and two sided limits, every uniform value", "why_tests_cant": "A continuum of parameters and inputs.", "anchors": ["pelicun/uq.py:NormalRandomVariable.inverse_transform", "pelicun/uq.py:LogNormalRandomVariable.inverse_transform", "pelicun/uq.py:WeibullRandomVariable.inverse_transform"]}
{"id": "C15", "title": "Truncating a uniform variable keeps it inside its own range", "statement": "A uniform variable on [a,b] with truncation limits [c,d] produces values in the intersection of [a,b] and [c,d]; one sided limits are supported like for other families.", "quantifier": "every a,b,c,d (each limit optional) and every uniform value", "why_tests_cant": "Continuum of parameters.", "anchors": ["pelicun/uq.py:UniformRandomVariable.inverse_transform", "pelicun/uq.py:UniformRandomVariable.cdf"]}
{"id": "C16", "title": "A multinomial variable picks outcome i with exactly its probability", "statement": "A multinomial variable with k probabilities maps a uniform value to the outcome i whose cumulative interval contains it (the last interval extends to 1, so the last outcome takes whatever is missing from a total of 1), always to exactly one of the outcomes, and a probability vector summing to more than one is rejected.", "quantifier": "every probability vector and every uniform value", "why_tests_cant": "All k and all thresholds.", "anchors": ["pelicun/uq.py:MultinomialRandomVariable.inverse_transform"]}
{"id": "C17", "title": "Sampling one variable does not disturb another", "statement": "Generating the samples of a registry leaves every variable's underlying uniform sample intact, so that variables anchored to another variable are perfectly correlated with it whatever the order in which their samples are generated.", "quantifier": "every registry of variables with anchors, every order", "why_tests_cant": "Depends on aliasing and on evaluation order.", "anchors": ["pelicun/uq.py:BaseRandomVariable.uni_sample", "pelicun/uq.py:RandomVariable.inverse_transform_sampling", "pelicun/uq.py:MultinomialRandomVariable.inverse_transform"]}
{"id": "C18", "title": "Empirical samples only repeat the raw data, coupled samples row by row", "statement": "An empirical variable returns only values of its raw data and each datum corresponds to an interval of equal probability; a coupled empirical sample of size n repeats the raw rows in order, so simultaneous values of several variables stay together.", "quantifier": "every raw sample, every size, every uniform value in [0,1)", "why_tests_cant": "All sizes, in particular n not a multiple of the raw sample size.", "anchors": ["pelicun/uq.py:EmpiricalRandomVariable.inverse_transform", "pelicun/uq.py:CoupledEmpiricalRandomVariable.inverse_transform"]}
{"id": "C19", "title": "Correlations are attached to the right variables whatever their order", "statement": "The correlation matrix given with a list of variables is stored so that the correlation between any two named variables is the one the caller gave, for every order of the list, and asking for a subset returns the sub-matrix in the requested order.", "quantifier": "every list of distinct names, every square matrix (symmetric, as correlation matrices are, for subsets), every subset in any order", "why_tests_cant": "All permutations of names.", "anchors": ["pelicun/uq.py:RandomVariableSet.__init__", "pelicun/uq.py:RandomVariableSet.Rho"]}
{"id": "C20", "title": "A registry never silently replaces a random variable", "statement": "Adding a variable with an existing name is rejected and leaves the registry unchanged; every added variable is retrievable under its name; after generate_sample every variable has a sample of the requested size.", "quantifier": "every sequence of additions", "why_tests_cant": "Unbounded histories.", "anchors": ["pelicun/uq.py:RandomVariableRegistry.add_RV", "pelicun/uq.py:RandomVariableRegistry.generate_sample"]}
{"id": "C21", "title": "Scaling a distribution scales its samples", "statement": "scale_distribution(f, family, theta, limits) yields the distribution of f times the variable: every quantile (with limits) is multiplied by f, scaling by f then g equals scaling by f*g, the shape parameters (CoV, dispersion) are unaffected, and families it does not support are rejected.", "quantifier": "every supported family, every parameter set and limits, every positive factor", "why_tests_cant": "Continuum of parameters.", "anchors": ["pelicun/uq.py:scale_distribution"]}
{"id": "C22", "title": "Multilinear CDF variables invert their cdf", "statement": "A multilinear CDF variable is accepted exactly when its points are a valid strictly increasing cdf from 0 to 1; its samples lie between the first and last point, are monotone in the uniform value, and cdf(inverse(u)) = u.", "quantifier": "every list of points and every u in [0,1]", "why_tests_cant": "All numbers of points.", "anchors": ["pelicun/uq.py:MultilinearCDFRandomVariable"]}
{"id": "C23", "title": "Residual drift estimates are physically admissible", "statement": "The estimated residual drift is never negative, never exceeds the peak drift, is zero up to the yield drift, and grows monotonically with peak drift before the random scatter is applied.", "quantifier": "every peak drift value, yield drift and scatter value", "why_tests_cant": "Continuum of inputs over three branches.", "anchors": ["pelicun/model/demand_model.py:DemandModel.estimate_RID"]}
{"id": "C24", "title": "Calibration uses each demand's own settings", "statement": "Calibration settings given for a demand type apply to every demand of that type, settings under ALL to every other demand, and limits given in a unit are converted once with that unit.", "quantifier": "every configuration and every list of demands", "why_tests_cant": "All overlaps of ALL and specific settings with different units.", "anchors": ["pelicun/model/demand_model.py:DemandModel.calibrate_model"]}
{"id": "C25", "title": "Truncation and censoring remove exactly the out-of-range realizations", "statement": "Before fitting, a realization is kept exactly when every demand with limits is strictly inside its limits, the same rows are kept for all demands, and the number of censored realizations handed to the fit is the number of those outside the censoring limits.", "quantifier": "every sample, every set of limits", "why_tests_cant": "All samples and limit combinations.", "anchors": ["pelicun/model/demand_model.py:DemandModel.calibrate_model"]}
{"id": "C26", "title": "Cloning demands copies whole columns and nothing else", "statement": "clone_demands replaces each listed demand by exact copies under the new labels, keeps all unlisted demands with their values and units, and rejects duplicated target labels.", "quantifier": "every sample and every cloning table", "why_tests_cant": "All tables.", "anchors": ["pelicun/model/demand_model.py:DemandModel.clone_demands"]}
{"id": "C27", "title": "Each performance group is driven by the demand of its own location and direction", "statement": "The demand used for a performance group has the type, location (plus the component's offset) and direction its fragility asks for; a non-directional group uses the largest demand over all directions at that location times the non-directional multiplier.", "quantifier": "every component, location, direction, offset and demand sample", "why_tests_cant": "All combinations of components, locations and directions.", "anchors": ["pelicun/model/demand_model.py:_get_required_demand_type", "pelicun/model/demand_model.py:_assemble_required_demand_data"]}
{"id": "C28", "title": "A missing demand is always reported before the calculation", "statement": "If the demand required by some performance group is absent from the demand sample an error naming it is raised rather than computing with something else.", "quantifier": "every set of available and required demands", "why_tests_cant": "All subsets.", "anchors": ["pelicun/model/demand_model.py:_verify_edps_available"]}
{"id": "C29", "title": "Batching covers every performance group exactly once within the size limit", "statement": "Splitting the asset into batches terminates, puts every performance group into exactly one batch in order, keeps each batch within the requested number of blocks unless it is a single larger performance group, and never starts a new batch that could have fitted into the previous one.", "quantifier": "every list of block counts and every batch size", "why_tests_cant": "All lists and sizes.", "anchors": ["pelicun/model/damage_model.py:DamageModel_DS._get_pg_batches"]}
{"id": "C30", "title": "The damage state of a block is that of the highest limit state exceeded", "statement": "For every block and realization the damage state is zero exactly when no limit state capacity is below the demand, and otherwise the one assigned to the highest exceeded limit state of that component, independently of which other components are evaluated in the same batch.", "quantifier": "every batch of components with any limit state sets, all capacities and demands", "why_tests_cant": "Depends on combinations of components with different limit states.", "anchors": ["pelicun/model/damage_model.py:DamageModel_DS._evaluate_damage_state"]}
{"id": "C31", "title": "Damage results do not depend on the batch size", "statement": "Evaluating the same capacities and demands in batches of any size gives the same damage states.", "quantifier": "every asset, every two batch sizes", "why_tests_cant": "All batch sizes and assets.", "anchors": ["pelicun/model/damage_model.py:DamageModel.calculate", "pelicun/model/damage_model.py:DamageModel_DS._evaluate_damage_state"]}
{"id": "C32", "title": "Damaged quantities add up to the component quantity", "statement": "For every performance group and realization without a not-available mark, the quantities over all damage states add up to the component quantity; each is between zero and that quantity; a group with all blocks not available has no quantity at all.", "quantifier": "every component quantity, number of blocks and damage state sample", "why_tests_cant": "All block counts and damage state patterns.", "anchors": ["pelicun/model/damage_model.py:DamageModel_DS.prepare_dmg_quantities", "pelicun/model/damage_model.py:DamageModel_DS.complete_ds_cols"]}
{"id": "C33", "title": "A damage task changes only the prescribed blocks", "statement": "A damage process task changes only the target components in realizations (and, for location-specific tasks, locations) where the source component is in the source damage state, sets them to exactly the prescribed state, and rejects malformed sources, events or targets.", "quantifier": "every damage state sample, every task", "why_tests_cant": "All samples and tasks.", "anchors": ["pelicun/model/damage_model.py:DamageModel_DS.perform_dmg_task", "pelicun/model/damage_model.py:DamageModel_DS._perform_dmg_event", "pelicun/model/damage_model.py:DamageModel_DS._perform_dmg_event_loc"]}
{"id": "C34", "title": "Damage tasks run in the order of their numbers", "statement": "Tasks prefixed 1_, 2_, 3_, ... are executed in increasing numerical order.", "quantifier": "every set of numbered tasks", "why_tests_cant": "Only visible with ten or more tasks.", "anchors": ["pelicun/model/damage_model.py:DamageModel.calculate", "pelicun/model/damage_model.py:DamageModel_DS.perform_dmg_task"]}
{"id": "C35", "title": "The built-in FEMA P-58 process makes collapse and irreparable damage exclusive", "statement": "After the default FEMA P-58 damage process no realization is both collapsed and irreparable, in a collapsed or irreparable realization every other component is marked not available, and all other realizations are untouched.", "quantifier": "every damage state sample", "why_tests_cant": "All samples of the relevant components.", "anchors": ["pelicun/assessment.py:default_damage_processes", "pelicun/model/damage_model.py:DamageModel_DS.perform_dmg_task"]}
{"id": "C36", "title": "Damage states are numbered consecutively", "statement": "Damage states are numbered 1,2,3,... over all limit states of a component in order; a limit state with weights gets one state per weight; every limit state gets at least one and no number is used twice.", "quantifier": "every number of limit states and weight vectors", "why_tests_cant": "All limit state structures.", "anchors": ["pelicun/model/damage_model.py:DamageModel_DS._create_dmg_RVs"]}
{"id": "C37", "title": "Earlier parameter definitions win", "statement": "When several parameter sources define the same component, the whole definition from the first source is used and later ones are ignored, for damage and for loss parameters.", "quantifier": "every list of sources with any overlap and any missing cells", "why_tests_cant": "All overlaps and all patterns of missing cells.", "anchors": ["pelicun/model/damage_model.py:DamageModel_Base.load_model_parameters", "pelicun/model/loss_model.py:RepairModel_Base.load_model_parameters"]}
{"id": "C38", "title": "Capacity adjustments are parsed and applied as written", "statement": "A capacity scaling specification string is accepted exactly when it is a number preceded by one of the documented operators; it is applied to every limit state it names, and the operation is the one written.", "quantifier": "every specification string and capacity sample", "why_tests_cant": "All strings.", "anchors": ["pelicun/model/damage_model.py:DamageModel_DS._create_dmg_RVs", "pelicun/model/damage_model.py:DamageModel_DS._handle_operation"]}
{"id": "C39", "title": "Damage state probabilities form a distribution", "statement": "For every component block with an available realization, the reported probability of each observed damage state is its share of the available realizations, and the probabilities add up to 1; a block with none is reported as missing.", "quantifier": "every damage state sample", "why_tests_cant": "All samples.", "anchors": ["pelicun/model/damage_model.py:DamageModel_DS.probabilities"]}
{"id": "C40", "title": "In realizations with replacement no other loss is counted", "statement": "aggregate_losses reports only replacement losses in every realization in which a replacement consequence is triggered.", "quantifier": "every loss sample", "why_tests_cant": "All samples and consequence sets.", "anchors": ["pelicun/model/loss_model.py:LossModel.aggregate_losses", "pelicun/model/loss_model.py:LossModel._make_replacement_exclusive"]}
{"id": "C41", "title": "Replacement thresholds replace the whole loss exactly when exceeded", "statement": "With replacement thresholds, a realization without replacement whose repair consequence exceeds ratio times the replacement value for any decision variable is reported with exactly the replacement value for every decision variable, and every other realization is unchanged.", "quantifier": "every loss sample, replacement sample and set of thresholds", "why_tests_cant": "All samples.", "anchors": ["pelicun/model/loss_model.py:LossModel._apply_replacement_thresholds"]}
{"id": "C42", "title": "Aggregated losses are the totals of the sample", "statement": "Aggregated cost equals the sum over all components, locations, directions and damage states; sequential time is the sum and parallel time the maximum over locations, hence parallel <= sequential; units are converted once.", "quantifier": "every non-negative loss sample", "why_tests_cant": "All label sets.", "anchors": ["pelicun/model/loss_model.py:LossModel._aggregate_sample", "pelicun/model/loss_model.py:LossModel.aggregate_losses"]}
{"id": "C43", "title": "Aggregation is free of side effects", "statement": "aggregate_losses and reading the sample leave the stored loss samples unchanged, so that calling them any number of times gives the same answer.", "quantifier": "every loss model state and any sequence of calls", "why_tests_cant": "Histories.", "anchors": ["pelicun/model/loss_model.py:LossModel.sample", "pelicun/model/loss_model.py:LossModel.aggregate_losses"]}
{"id": "C44", "title": "Consequence scaling applies each row once to what it names", "statement": "Each row of a scaling table multiplies exactly the losses whose labels match it (location and direction ranges expanded), the decision variable is mandatory, and rows matching nothing are ignored.", "quantifier": "every scaling table and loss sample", "why_tests_cant": "All tables and ranges.", "anchors": ["pelicun/model/loss_model.py:LossModel.consequence_scaling", "pelicun/model/loss_model.py:LossModel._apply_consequence_scaling"]}
{"id": "C45", "title": "Quantity dependent median consequences are bounded and monotone", "statement": "A multilinear median consequence equals the tabulated value at tabulated quantities, is clamped to the end values outside, lies between the smallest and largest tabulated value, and is non-increasing in quantity when the table is.", "quantifier": "every table of increasing quantities, every quantity", "why_tests_cant": "All tables and quantities.", "anchors": ["pelicun/model/loss_model.py:_prep_bounded_multilinear_median_DV", "pelicun/base.py:stringterpolation"]}
{"id": "C46", "title": "The loss map fill policies keep the user's entries", "statement": "add_loss_map keeps every entry the user provides, fill_all maps every other component of the asset to itself, fill does the same except for the excessive residual drift pseudo component, and unknown policies are rejected.", "quantifier": "every asset and user map", "why_tests_cant": "All maps.", "anchors": ["pelicun/model/loss_model.py:LossModel.add_loss_map"]}
{"id": "C47", "title": "Repair losses are quantity times unit consequence times scatter", "statement": "The loss of a component block in a damage state is its damaged quantity times the median unit consequence for the aggregated quantity times the consequence scatter, is zero when the quantity is zero or not available, and is never negative for non-negative parameters.", "quantifier": "every damage sample and parameter set", "why_tests_cant": "All label and parameter combinations.", "anchors": ["pelicun/model/loss_model.py:RepairModel_DS.calculate", "pelicun/model/loss_model.py:RepairModel_DS._calc_median_consequence"]}
{"id": "C48", "title": "Loss functions are block additive", "statement": "The loss from a loss function over all blocks of a performance group equals the loss function value at the demand times the component quantity, whatever the number of blocks.", "quantifier": "every loss function, quantity and number of blocks", "why_tests_cant": "All block counts.", "anchors": ["pelicun/model/loss_model.py:RepairModel_LF._calc_median_consequence"]}
{"id": "C49", "title": "Missing loss parameters are reported exactly", "statement": "The list of missing consequences is exactly the required (consequence, decision variable) pairs that neither loss model provides.", "quantifier": "every loss map and parameter set", "why_tests_cant": "All sets.", "anchors": ["pelicun/model/loss_model.py:LossModel._ensure_loss_parameter_availability"]}
{"id": "C50", "title": "Inconsistent decision variable units are rejected", "statement": "Loading loss parameters in which a decision variable has more than one unit is rejected; otherwise every parameter is converted with that unit.", "quantifier": "every list of parameter sources", "why_tests_cant": "All splits over files.", "anchors": ["pelicun/model/loss_model.py:LossModel._load_from_data_path", "pelicun/model/loss_model.py:LossModel.load_model_parameters"]}
{"id": "C51", "title": "Loss combinations respect the order of the combined components", "statement": "When a combination table is given for (wind, flood) type pairs the row index is taken from the first and the column index from the second component and the combined loss replaces both.", "quantifier": "every combination table and loss sample", "why_tests_cant": "Iteration order over sets is not visible in tests.", "anchors": ["pelicun/model/loss_model.py:LossModel._loss_combination_add_combinable"]}
{"id": "C52", "title": "Replacement consequences can be switched off", "statement": "If the user's configuration does not provide a replacement energy or carbon value and the loss database does not either, no replacement entry for that decision variable is left behind in the parameters.", "quantifier": "every configuration", "why_tests_cant": "All configurations.", "anchors": ["pelicun/assessment.py:_loss__add_replacement_energy", "pelicun/assessment.py:_loss__add_replacement_carbon"]}
{"id": "C53", "title": "A successful DLML update delivers exactly the requested version", "statement": "After a successful data update to a commit every file listed in that commit's manifest is present locally with that commit's content, whatever updates were done before.", "quantifier": "every repository history, every sequence of earlier updates (cached or not, interrupted or not)", "why_tests_cant": "Depends on unbounded histories and crash points.", "anchors": ["pelicun/tools/dlml.py:download_data_files", "pelicun/tools/dlml.py:_get_changed_files"]}
{"id": "C54", "title": "An interrupted DLML update is repaired by the next one", "statement": "If an update is interrupted at any point (between any two writes), repeating it delivers exactly the requested version.", "quantifier": "every crash point of every update, repeated interruptions", "why_tests_cant": "Every crash point.", "anchors": ["pelicun/tools/dlml.py:download_data_files", "pelicun/tools/dlml.py:save_cache", "pelicun/tools/dlml.py:load_cache"]}
{"id": "C55", "title": "An incomplete first download is noticed", "statement": "If the very first data download is interrupted, importing the package afterwards does not treat the data as installed.", "quantifier": "every crash point of the initial download", "why_tests_cant": "Every crash point.", "anchors": ["pelicun/tools/dlml.py:check_dlml_data"]}
{"id": "C56", "title": "Regional results do not depend on scheduling", "statement": "The rows of the regional damage and loss results are in the order of the inventory, one per building, whatever the number of workers, the order in which chunks finish and the order in which the file system lists the partial results; every building is processed exactly once.", "quantifier": "every inventory, every chunk size, every schedule and listing order", "why_tests_cant": "All schedules.", "anchors": ["pelicun/tools/regional_sim.py:regional_sim", "pelicun/tools/regional_sim.py:process_and_save_chunk"]}
{"id": "C57", "title": "Intensity measures keep their labels in a regional run", "statement": "Every intensity measure value of a grid point is reported under the name of that intensity measure.", "quantifier": "every configuration order of intensity measures", "why_tests_cant": "All orders of names in a JSON file.", "anchors": ["pelicun/tools/regional_sim.py:process_buildings_chunk"]}
{"id": "C58", "title": "Asset filters select exactly the listed identifiers", "statement": "parse_id_filter returns the strictly increasing list of exactly the identifiers denoted by the comma separated numbers and ranges, and rejects reversed or malformed ranges.", "quantifier": "every filter string", "why_tests_cant": "All strings.", "anchors": ["pelicun/tools/regional_sim.py:parse_id_filter"]}
{"id": "C59", "title": "Nearest neighbour interpolation is a convex combination", "statement": "The interpolated demand lies between the smallest and largest neighbour value for every weighting scheme, the weights are non-negative and add up to one, and closer neighbours never weigh less.", "quantifier": "every set of neighbours, distances and values", "why_tests_cant": "Continuum of inputs.", "anchors": ["pelicun/tools/NNR.py:NNR"]}
{"id": "C60", "title": "Condensed damage reports the governing damage state", "statement": "With CondenseDS the reported value per component and location is the highest damage state with a positive quantity, 0 if there is none.", "quantifier": "every damage sample", "why_tests_cant": "All samples.", "anchors": ["pelicun/tools/DL_calculation.py:_damage_save"]}
{"id": "C61", "title": "Runs in one process are independent", "statement": "The outputs requested by one run of the calculation do not depend on which other runs were performed before in the same process.", "quantifier": "every sequence of runs with any configurations", "why_tests_cant": "Histories through shared module level objects.", "anchors": ["pelicun/tools/DL_calculation.py:_parse_config_file"]}
{"id": "C62", "title": "Grouping saved losses preserves totals", "statement": "The grouped loss outputs have the same grand total as the sample for every set of grouping levels.", "quantifier": "every loss sample, every set of levels", "why_tests_cant": "All samples and groupings.", "anchors": ["pelicun/tools/DL_calculation.py:_loss_save", "pelicun/tools/DL_calculation.py:_demand_save"]}
{"id": "C63", "title": "Only pelicun's own result files are removed", "statement": "Cleaning the output directory removes exactly the known result files, and removing CSV files not requested never deletes a requested output or the summary.", "quantifier": "every directory content and every set of requested outputs", "why_tests_cant": "All directory states.", "anchors": ["pelicun/tools/DL_calculation.py:_remove_existing_files", "pelicun/tools/DL_calculation.py:_remove_csv_files_if_not_requested"]}
{"id": "C64", "title": "Listing all damage states only adds zero columns", "statement": "With all damage states requested, every performance group gets one column for each damage state its component can reach (0 included); existing columns are unchanged, new ones are zero.", "quantifier": "every damage sample and every set of damage parameters", "why_tests_cant": "All limit state structures and all sets of observed states.", "anchors": ["pelicun/model/damage_model.py:DamageModel_DS.complete_ds_cols"]}
{"id": "C65", "title": "The capacities of one block are perfectly correlated", "statement": "Every limit state capacity of a block is tied to the first limit state of the same block, never to another block or performance group.", "quantifier": "every batch, number of blocks and limit state structure", "why_tests_cant": "All structures.", "anchors": ["pelicun/model/damage_model.py:DamageModel_DS._create_dmg_RVs"]}
{"id": "C66", "title": "Splitting a component into blocks does not change whether it is accepted", "statement": "A component accepted with one block is accepted with any number of blocks.", "quantifier": "every set of damage parameters, every number of blocks", "why_tests_cant": "All families and block counts.", "anchors": ["pelicun/model/damage_model.py:DamageModel_DS._create_dmg_RVs"]}
{"id": "C67", "title": "Unknown units are rejected", "statement": "Saving or loading a table that names a unit without a conversion factor raises an error instead of storing unconverted numbers.", "quantifier": "every table, every unit name and every set of conversion factors", "why_tests_cant": "All unit names, misspelt ones included.", "anchors": ["pelicun/file_io.py:save_to_csv", "pelicun/file_io.py:load_data"]}
{"id": "C68", "title": "Extending the demand sample keeps what is there", "statement": "expand_sample and estimate_RID_and_adjust_sample leave every existing column with its values, and store each new column converted to base units once.", "quantifier": "every demand sample, new column, scalar or array value and unit", "why_tests_cant": "All samples and conversion factors.", "anchors": ["pelicun/model/demand_model.py:DemandModel.expand_sample", "pelicun/model/demand_model.py:DemandModel.estimate_RID_and_adjust_sample"]}
{"id": "C69", "title": "Realizations flagged as failed are removed, all others are kept", "statement": "When a demand table has an ERROR column, the loaded sample has exactly the realizations without error, in order, in every demand.", "quantifier": "every demand table", "why_tests_cant": "All tables and header layouts.", "anchors": ["pelicun/model/demand_model.py:DemandModel.load_sample"]}
{"id": "C70", "title": "The residual drift estimate does not depend on the unit peak drift is given in", "statement": "Estimating residual drifts for a sample gives the same residual drift values whatever unit the peak drifts were provided in.", "quantifier": "every sample and every unit of the peak drift", "why_tests_cant": "All conversion factors.", "anchors": ["pelicun/model/demand_model.py:DemandModel.estimate_RID_and_adjust_sample", "pelicun/model/demand_model.py:DemandModel.estimate_RID"]}
{"id": "C71", "title": "Demand expressions: only arithmetic is evaluated, and as written", "statement": "An expression that combines demands is refused unless it consists of letters, digits, ^ + - * / ( ) and white space; what is evaluated is the same text with every ^ replaced by **.", "quantifier": "every text", "why_tests_cant": "All strings; an accepted dangerous string would be executed.", "anchors": ["pelicun/model/demand_model.py:_clean_up_expression"]}
{"id": "C72", "title": "Loading parameters in several calls equals loading them in one call", "statement": "Calling load_model_parameters with some sources and then with further sources gives the same parameters, in the same units, and the same list of missing components as one call with all sources.", "quantifier": "every split of every list of sources over calls", "why_tests_cant": "All histories of calls.", "anchors": ["pelicun/model/damage_model.py:DamageModel.load_model_parameters", "pelicun/model/loss_model.py:LossModel.load_model_parameters"]}
{"id": "C73", "title": "Components without damage parameters are reported exactly", "statement": "The components reported as missing by the damage model are exactly the components of the asset whose first definition is absent or marked incomplete.", "quantifier": "every asset and every list of sources", "why_tests_cant": "All sets of components and sources.", "anchors": ["pelicun/model/damage_model.py:DamageModel._ensure_damage_parameter_availability", "pelicun/model/damage_model.py:DamageModel.load_model_parameters"]}
{"id": "C74", "title": "Every performance group is sampled under its own label", "statement": "The component quantity sample has exactly one column per performance group of the component model, labelled with its component, location, direction and number and holding the values drawn for that group.", "quantifier": "every set of performance groups", "why_tests_cant": "All labels, including those of basements and identifiers with special characters.", "anchors": ["pelicun/model/asset_model.py:AssetModel.generate_cmp_sample", "pelicun/model/asset_model.py:AssetModel._create_cmp_RVs", "pelicun/base.py:convert_to_MultiIndex"]}
{"id": "C75", "title": "No results of an earlier run are left among the new ones", "statement": "After a run every result file in the output directory, in either format, is a result of that run.", "quantifier": "every configuration and every earlier content of the directory", "why_tests_cant": "All directory states.", "anchors": ["pelicun/tools/DL_calculation.py:_remove_existing_files", "pelicun/tools/DL_calculation.py:_create_json_files_if_requested"]}
{"id": "C76", "title": "Each building of a regional run gets the decision variables it asks for", "statement": "Repair times are reported for a building exactly when the configuration generated for that building requests them.", "quantifier": "every chunk of buildings with any generated configurations", "why_tests_cant": "All combinations of configurations in a chunk.", "anchors": ["pelicun/tools/regional_sim.py:process_buildings_chunk", "pelicun/tools/regional_sim.py:_calculate_losses_general"]}
{"id": "C77", "title": "Regional damage results are damage states", "statement": "The value reported for a building and realization is the damage state its component is in.", "quantifier": "every damage sample", "why_tests_cant": "All samples, including buildings with several components.", "anchors": ["pelicun/tools/regional_sim.py:process_buildings_chunk"]}
{"id": "C78", "title": "A filter restricts a regional run to the buildings it lists", "statement": "With a filter the simulation covers exactly the listed buildings, in increasing order of identifier, and stops when one of them is not in the inventory.", "quantifier": "every filter string and inventory", "why_tests_cant": "All strings and inventories.", "anchors": ["pelicun/tools/regional_sim.py:regional_sim"]}
{"id": "C79", "title": "A calculation maps every component to its consequence model", "statement": "With automatic mapping each component of the asset is mapped to the consequence model that belongs to it if the database has one, collapse and irreparable damage are mapped to the replacement consequences, and nothing else is mapped; a map of the user, in the present or the old format, is used as the user wrote it.", "quantifier": "every mapping approach, occupancy, database, list of components and user file", "why_tests_cant": "All maps and component lists.", "anchors": ["pelicun/assessment.py:_loss__map_auto", "pelicun/assessment.py:_loss__map_user", "pelicun/assessment.py:DLCalculationAssessment.calculate_loss", "pelicun/model/loss_model.py:add_loss_map"]}
{"id": "C80", "title": "The built-in damage processes apply to the components of the asset", "statement": "With a built-in damage process the rules are exactly those whose component is part of the asset, and each structural component or lifeline facility in its last damage state causes collapse; a user defined process is used as given.", "quantifier": "every list of components and built-in process", "why_tests_cant": "All lists of component names.", "anchors": ["pelicun/assessment.py:DLCalculationAssessment.calculate_damage", "pelicun/assessment.py:default_damage_processes"]}
{"id": "C81", "title": "Collapse limits keep exactly the realizations within the limits", "statement": "Before the demand model is fitted, the realizations in which a demand of a limited type exceeds its limit are removed, all others are kept unchanged and in order; the calculation stops if a limited type has no demands.", "quantifier": "every table of demands and set of limits", "why_tests_cant": "All tables and limits.", "anchors": ["pelicun/assessment.py:calculate_demand"]}
{"id": "C82", "title": "Demands without units get the unit of their type", "statement": "When units are inferred from the unit of length, each demand is interpreted in the unit of its quantity (acceleration, velocity, displacement, ratio), so that loading it gives the same demand in standard units.", "quantifier": "every table of demands, unit of length and demand type known to the fragility models", "why_tests_cant": "All demand types and tables.", "anchors": ["pelicun/assessment.py:_add_units", "pelicun/model/demand_model.py:load_sample"]}
{"id": "C83", "title": "Supporting components are added where they are needed", "statement": "The components that represent collapse, irreparable damage and demand-triggered collapse are added exactly when they are needed, one unit at each location and direction of the demand they depend on, and the assignment of the user is otherwise unchanged.", "quantifier": "every component assignment and demand table", "why_tests_cant": "All assignments and demand tables.", "anchors": ["pelicun/assessment.py:calculate_asset"]}
{"id": "C84", "title": "A file of the user takes precedence over the built-in databases", "statement": "The parameters of a component come from the file of the user if it has the component, otherwise from the named databases, otherwise from the generated fragilities; a file or database that does not exist is reported.", "quantifier": "every file system, list of databases and user file", "why_tests_cant": "All combinations of files and databases.", "anchors": ["pelicun/assessment.py:calculate_damage", "pelicun/assessment.py:calculate_loss"]}
{"id": "C85", "title": "Generated fragilities are complete and as configured", "statement": "The fragilities of collapse, excessive residual drift, irreparable damage and aggregate components are generated exactly when configured, with the configured demand, unit and parameters; every known demand type is accepted.", "quantifier": "every configuration of collapse and irreparable damage, with components assigned or sampled", "why_tests_cant": "All configurations.", "anchors": ["pelicun/assessment.py:calculate_damage"]}
{"id": "C86", "title": "Residual drifts are inferred for every peak drift, in every calculation", "statement": "For each configured direction there is one residual drift for each peak drift, at the same location and direction, after the given demands; a constant demand of 1 is available; repeating a calculation with the same configuration gives the same result.", "quantifier": "every demand table and configuration", "why_tests_cant": "All tables, and repeated calculations.", "anchors": ["pelicun/assessment.py:calculate_demand", "pelicun/model/demand_model.py:estimate_RID_and_adjust_sample"]}
{"id": "C87", "title": "Wind and flood losses are combined with each other", "statement": "With the Hazus Hurricane combination the losses of the wind component are combined with those of the flood component.", "quantifier": "every asset with a wind and a flood component, in any order", "why_tests_cant": "All component orders and loss maps.", "anchors": ["pelicun/assessment.py:calculate_loss"]}
{"id": "C88", "title": "Demands kept as data keep their realizations together", "statement": "With the order of the data preserved, realization k of a sample generated from a calibrated model consists, for all demands kept as data, of the values of one realization of the raw sample, namely the one with number k modulo the number of realizations inside the limits.", "quantifier": "every raw sample, calibration configuration and sample size", "why_tests_cant": "All samples, limits and sizes.", "anchors": ["pelicun/model/demand_model.py:DemandModel.calibrate_model", "pelicun/model/demand_model.py:DemandModel._create_RVs", "pelicun/uq.py:CoupledEmpiricalRandomVariable"]}
{"id": "C89", "title": "A saved demand model can be loaded back", "statement": "A demand model that was calibrated or sampled can be saved, and loading the files gives a model with the same marginals, units, data and correlations.", "quantifier": "every demand model, earlier content of the files and state of the model that loads them", "why_tests_cant": "All models and states.", "anchors": ["pelicun/model/demand_model.py:DemandModel.save_model", "pelicun/model/demand_model.py:DemandModel.load_model"]}
{"id": "C90", "title": "Every demand is sampled from its own distribution, with the correlations of the model", "statement": "The generated sample has one column per demand of the model, drawn from the distribution of that demand with uniform values of its own; the uniform values of two demands have the correlation that the model gives for that pair.", "quantifier": "every demand model, sample size and random numbers", "why_tests_cant": "All labels, orders of the correlation table and draws.", "anchors": ["pelicun/model/demand_model.py:DemandModel.generate_sample", "pelicun/model/demand_model.py:DemandModel._create_RVs"]}
{"id": "C91", "title": "Additional uncertainty is added to the variance", "statement": "With an additional uncertainty the variance of the demand, or of its logarithm for lognormal demands, is the sum of the fitted variance and the square of the addition; demands without one keep their fitted parameters.", "quantifier": "every calibration configuration, distribution family, unit and fitted parameters", "why_tests_cant": "All families and units.", "anchors": ["pelicun/model/demand_model.py:DemandModel.calibrate_model"]}
{"id": "C92", "title": "A demand model is what was calibrated or loaded last", "statement": "What is sampled and saved after calibrating or loading a model depends on that calibration or load, not on what the model object held before.", "quantifier": "every history of calibrations and loads", "why_tests_cant": "All histories.", "anchors": ["pelicun/model/demand_model.py:DemandModel.calibrate_model", "pelicun/model/demand_model.py:DemandModel.load_model", "pelicun/model/demand_model.py:DemandModel.save_model"]}
{"id": "C93", "title": "Generating a sample again does what it did the first time", "statement": "Generating a sample leaves the demand model as it is: a second generation gives what it would have given without the first.", "quantifier": "every sequence of generations", "why_tests_cant": "All histories.", "anchors": ["pelicun/model/demand_model.py:DemandModel.generate_sample", "pelicun/model/demand_model.py:DemandModel.clone_demands"]}
{"id": "C94", "title": "Without limits the fitted parameters are the moments of the data", "statement": "Fitting a distribution to a sample without truncation or detection limits gives the mean and deviation of the values (of their logarithms for lognormal demands), in the form the family uses.", "quantifier": "every number of demands and realizations, every sample, every mix of families", "why_tests_cant": "All real samples; tests compare a few samples within a tolerance.", "anchors": ["pelicun/uq.py:fit_distribution_to_sample", "pelicun/uq.py:_get_theta"]}
{"id": "C95", "title": "The fitted correlations are those of the data and can be sampled from", "statement": "Without limits the correlation matrix holds the coefficients of Pearson of the (logarithms of the) data, has a unit diagonal, and is symmetric and semidefinite. With limits it is symmetric with coefficients between -1 and 1.", "quantifier": "every sample and set of limits; every outcome of the decompositions", "why_tests_cant": "All samples, including those whose matrix is singular.", "anchors": ["pelicun/uq.py:fit_distribution_to_sample", "pelicun/uq.py:_get_std_corr_matrix", "pelicun/uq.py:_get_std_samples"]}
{"id": "C96", "title": "The fit does not depend on the units of the data", "statement": "Expressing the demands in other units changes the fitted parameters by the same factors and leaves dispersions, coefficients of variation and correlations as they are.", "quantifier": "every sample and every positive factor for each demand", "why_tests_cant": "Pairs of runs with related inputs.", "anchors": ["pelicun/uq.py:fit_distribution_to_sample"]}
{"id": "C97", "title": "Fitting leaves the data and limits of the caller as they are", "statement": "The arrays passed to the fit hold the same values afterwards, so that the same call gives the same result.", "quantifier": "every kind of argument (list or array, integer or not) and every family", "why_tests_cant": "Aliasing depends on how the caller passes its data.", "anchors": ["pelicun/uq.py:fit_distribution_to_sample"]}
{"id": "C98", "title": "The distribution fitted to a demand depends on that demand only", "statement": "The parameters of a demand do not depend on which other demands are fitted in the same call or on its position among them.", "quantifier": "every set of other demands, every order", "why_tests_cant": "All contexts of a demand.", "anchors": ["pelicun/uq.py:fit_distribution_to_sample", "pelicun/uq.py:_neg_log_likelihood"]}
{"id": "C99", "title": "A sample with values outside its truncation limits is not fitted", "statement": "If the fit returns, all values of the sample lie within the truncation limits of their demand.", "quantifier": "every sample, family and set of limits", "why_tests_cant": "All positions of a value that is out of bounds.", "anchors": ["pelicun/uq.py:_get_std_samples", "pelicun/uq.py:fit_distribution_to_sample"]}
{"id": "C100", "title": "A component sample survives saving and loading", "statement": "Saving the sample of component quantities writes every column in the unit of its component. Loading the file gives the same quantities, units and blocks, and saving again gives the same file. Tables without identifiers get them, other shapes are rejected.", "quantifier": "every sample, unit assignment and table of factors", "why_tests_cant": "All samples and units; tests use one file.", "anchors": ["pelicun/model/asset_model.py:AssetModel.save_cmp_sample", "pelicun/model/asset_model.py:AssetModel.load_cmp_sample"]}
{"id": "C101", "title": "A damage sample survives saving and loading", "statement": "Saving the damage sample writes every column in the unit of its component and loading gives it back; a sample that was loaded can be saved.", "quantifier": "every sample, unit assignment and table of factors", "why_tests_cant": "All samples and units.", "anchors": ["pelicun/model/damage_model.py:DamageModel.save_sample", "pelicun/model/damage_model.py:DamageModel.load_sample"]}
{"id": "C102", "title": "A loss sample survives saving and loading", "statement": "Every loss sample that was calculated can be saved, each column in the unit its parameters give, and loading it gives the sample and the unit of each decision variable back.", "quantifier": "every sample and table of loss parameters", "why_tests_cant": "All combinations of decision variables and components that occur or not.", "anchors": ["pelicun/model/loss_model.py:RepairModel_DS.save_sample", "pelicun/model/loss_model.py:RepairModel_DS.load_sample", "pelicun/model/loss_model.py:LossModel.save_sample"]}
{"id": "C103", "title": "A sample handed out and put back is the same sample", "statement": "The tables handed to the caller are in the units reported with them; a damage sample that is taken out of an assessment and loaded again is unchanged.", "quantifier": "every damage sample and unit", "why_tests_cant": "All units of components; tests use units with factor one.", "anchors": ["pelicun/model/damage_model.py:DamageModel.save_sample", "pelicun/model/damage_model.py:DamageModel.load_sample", "pelicun/tools/regional_sim.py:_calculate_losses_hazus_eq"]}
{"id": "C104", "title": "The JSON version of a result file holds the numbers of the file", "statement": "If JSON files are requested, following the parts of the label of a column in the JSON file leads to the values of that column in the order of the realizations. No column is lost, moved or added, and the unit of every column is listed.", "quantifier": "every sample with distinct labels, any numbers of label parts, with and without units", "why_tests_cant": "All mixtures of labels; the conversion handles labels of different lengths specially.", "anchors": ["pelicun/tools/DL_calculation.py:convert_df_to_dict", "pelicun/tools/DL_calculation.py:_create_json_files_if_requested"]}
{"id": "C105", "title": "The JSON version of statistics holds the numbers of the statistics", "statement": "If JSON files are requested, every statistic of a column is in the JSON file as a number, below the label of the column and the name of the statistic.", "quantifier": "every sample, with and without units", "why_tests_cant": "All samples and labels.", "anchors": ["pelicun/tools/DL_calculation.py:convert_df_to_dict", "pelicun/tools/DL_calculation.py:_create_json_files_if_requested", "pelicun/base.py:describe"]}
{"id": "C106", "title": "The summary flags the realizations with collapse or irreparable damage", "statement": "The summary keeps the aggregate losses as they are and adds, for each realization, whether the building collapsed and whether it is irreparable, as the damage sample says.", "quantifier": "every damage sample and aggregate loss sample", "why_tests_cant": "All samples.", "anchors": ["pelicun/tools/DL_calculation.py:_summary_save"]}
{"id": "C107", "title": "Statistics describe the sample", "statement": "Count, mean, deviation, extremes and percentiles are those of the values that are present. They are in order, do not depend on the order of the realizations or on missing values, and scale with the unit.", "quantifier": "every column of values, missing or not, and every factor", "why_tests_cant": "All samples and permutations.", "anchors": ["pelicun/base.py:describe"]}
{"id": "C108", "title": "Each building of a regional run is assessed with its own components", "statement": "When the components of the buildings of a chunk are loaded together, each building is assessed with the components that auto-population gave it, at its own identifier, in its own directions and with its own amounts, each once, and with no component of another building.", "quantifier": "every chunk of buildings, component rows, directions, units and amounts", "why_tests_cant": "All chunks; tests run a small inventory with one component per building.", "anchors": ["pelicun/tools/regional_sim.py:process_buildings_chunk", "pelicun/tools/regional_sim.py:unique_list", "pelicun/model/asset_model.py:AssetModel.load_cmp_model"]}
{"id": "C109", "title": "The losses of each building use its own damage and occupancy class", "statement": "In a regional run with the Hazus earthquake method, the repair cost and time of a building are the totals of the losses calculated from the damage of the buildings of its occupancy class at its location; what other buildings are in the chunk does not matter, and every building has losses.", "quantifier": "every chunk of buildings with occupancy classes, damage sample and loss calculation that is local", "why_tests_cant": "All chunks and calculations; tests compare a few buildings.", "anchors": ["pelicun/tools/regional_sim.py:_calculate_losses_hazus_eq", "pelicun/tools/regional_sim.py:unique_list"]}
{"id": "C110", "title": "A reference to the built-in library leads to the file it names", "statement": "A reference to a method and a file of the built-in library becomes the path of that file; other paths and tables stay as they are, in their places, and substituting again changes nothing. Unknown methods are reported. File names of earlier versions stand for their method, for fragilities and for consequences.", "quantifier": "every list of sources, installation path, method, file name and ending", "why_tests_cant": "All paths; tests use a few names.", "anchors": ["pelicun/file_io.py:substitute_default_path", "pelicun/assessment.py:DLCalculationAssessment.load_consequence_info", "pelicun/assessment.py:AssessmentBase.get_default_data"]}
{"id": "C111", "title": "A repeated calculation uses the parameters it is given", "statement": "When damage or losses are calculated again with the same assessment, for the same or another asset, the parameters of every component are those of the sources given for this calculation, and giving the same sources again changes nothing.", "quantifier": "every sequence of calculations with their assets and sources", "why_tests_cant": "All histories; tests use a new assessment for each calculation.", "anchors": ["pelicun/assessment.py:Assessment.calculate_damage", "pelicun/assessment.py:Assessment.calculate_loss", "pelicun/model/damage_model.py:DamageModel.load_model_parameters", "pelicun/model/loss_model.py:LossModel.load_model_parameters"]}
{"id": "C112", "title": "The short interface reads its configuration as documented", "statement": "Assessment.calculate_damage adds residual drifts and the collapse demand to the sample as the configurations say: with the documented keys and defaults, at the given location and direction, in the given unit, leaving other demands as they are.", "quantifier": "every sample, configuration, unit and value", "why_tests_cant": "All configurations; there are no tests with locations.", "anchors": ["pelicun/assessment.py:Assessment.calculate_damage", "pelicun/model/demand_model.py:DemandModel.expand_sample"]}
{"id": "C113", "title": "A distribution fitted to percentiles passes through values it can meet", "statement": "uq.fit_distribution_to_percentiles returns one of the candidate families, with parameters whose quantiles are at least as close to the given values (sum of squares) as those of every candidate that passes through the value at the median and at the highest percentile; values that are exactly the quantiles of a distribution of a candidate family are met exactly, whatever percentiles are given; unknown families are rejected.", "quantifier": "all values, percentiles, orders of candidate families and minimizers that do not end above their starting point", "why_tests_cant": "a test fits a few sets of percentiles; the choice among families and the starting point must be right for all of them, including percentiles below the median only", "anchors": ["pelicun/uq.py:fit_distribution_to_percentiles", "pelicun/uq.py:_OLS_percentiles"]}
{"id": "C114", "title": "The same seed gives the same samples", "statement": "The samples of an assessment with a seed depend on that seed and on the sequence of samples it generated since: not on other assessments in the process, however their calculations are interleaved. Setting the seed again is as good as a new assessment. The controlling numbers of a variable do not change when variables are added after it, nor those of later samples.", "quantifier": "all interleavings of creation, seeding and sampling steps of any number of assessments, for every random number generator", "why_tests_cant": "shared generators only show in particular interleavings and histories", "anchors": ["pelicun/base.py:Options.seed", "pelicun/base.py:Options.rng", "pelicun/uq.py:RandomVariableRegistry.generate_sample", "pelicun/model/demand_model.py:DemandModel.estimate_RID"]}
{"id": "C115", "title": "The configuration of a run", "statement": "A configuration file with a DL section is used as given: settings that are there stay, and only the documented defaults are added. Without a DL section, the section comes from the scripts of the methods named, with the demand file, number of realizations and options of the user; an asset a script asks to skip is skipped. The other sections stay. An accepted configuration has everything the analysis needs, in particular exactly one source of components and a whole number of realizations.", "quantifier": "all configuration files, command line arguments, auto-population scripts and states of the output defaults", "why_tests_cant": "the settings interact: which default applies depends on which of many optional settings, arguments and scripts are present", "anchors": ["pelicun/tools/DL_calculation.py:_parse_config_file", "pelicun/auto.py:auto_populate", "pelicun/settings/input_schema.json"]}
{"id": "C116", "title": "More demand or less capacity never means less damage", "statement": "If in a realization the demand on a block is not lower, its capacities are not higher and the damage states of its limit states go up with the limit states, then its damage state is not lower.", "quantifier": "all demand, capacity and damage state tables with realizations of any number, all blocks and realizations", "why_tests_cant": "it compares pairs of runs over all demands and capacities; a table of expected states checks a few pairs", "anchors": ["pelicun/model/damage_model.py:DamageModel_DS._evaluate_damage_state"]}
{"id": "C117", "title": "Each realization is evaluated on its own", "statement": "The damage state and the damaged quantity of a component in a realization depend on that realization of the demands, capacities and quantities alone: adding, removing, reordering or changing other realizations does not change them.", "quantifier": "all pairs of runs of any sizes in which a realization of the one is a realization of the other; all damage processes, batch sizes and demand expressions evaluated realization by realization", "why_tests_cant": "the calculation works on whole tables with groupings, maxima and joins over columns and rows; that no value crosses rows holds for all tables or not at all", "anchors": ["pelicun/model/damage_model.py:DamageModel_DS.obtain_ds_sample", "pelicun/model/damage_model.py:DamageModel_DS._perform_dmg_event", "pelicun/model/damage_model.py:DamageModel_DS._prepare_dmg_quantities", "pelicun/model/demand_model.py:_assemble_required_demand_data"]}
{"id": "C118", "title": "The losses of each realization follow from that realization alone", "statement": "Take two loss calculations with the same models and settings, possibly of different sizes. If a realization of the one and a realization of the other have the same damage, demands, component quantities, deviations and replacement consequences, they get the same losses from damage states and loss functions and the same aggregated totals and replacement flags. Exceptions that are part of the claim: a demand outside the range of a loss function in one realization fails the whole calculation, and a set of only undamaged realizations gets no losses at all.", "quantifier": "every pair of runs of any size, every realization in them, every loss model, combination table, threshold and unit", "why_tests_cant": "The number of realizations and the content of the others is unbounded; a test fixes one sample.", "anchors": ["pelicun/model/loss_model.py:RepairModel_DS.calculate", "pelicun/model/loss_model.py:RepairModel_LF.calculate", "pelicun/model/loss_model.py:LossModel.aggregate_losses"]}
{"id": "C119", "title": "The stored losses are those of the last calculation", "statement": "After a loss calculation that succeeds, the losses that are stored, saved and aggregated are those of the damage sample, demands and loss models in force at that calculation. Earlier calculations, successful or not, do not show; a damage sample whose size differs from the demand sample is rejected without any effect.", "quantifier": "every sequence of loss calculations with any models and samples, every asset", "why_tests_cant": "The history of calculations on one assessment is unbounded; tests calculate once on a new assessment.", "anchors": ["pelicun/model/loss_model.py:LossModel.calculate", "pelicun/model/loss_model.py:RepairModel_DS.calculate", "pelicun/model/loss_model.py:RepairModel_LF.calculate"]}
{"id": "C120", "title": "Other components of the asset do not matter to a component", "statement": "Take two assets, for example one with and one without some component, that agree on a component: its blocks, quantities, capacities and deviations. Then the component is in the same damage states, has the same damaged quantities and the same losses in both, under the same damage and loss models and demands.", "quantifier": "every pair of assets of any size that share a component, all capacities, demands, quantities, loss parameters and batch sizes", "why_tests_cant": "It compares pairs of assets of any content; a test has one asset and one expected result.", "anchors": ["pelicun/model/damage_model.py:DamageModel_DS.obtain_ds_sample", "pelicun/model/damage_model.py:DamageModel_DS.prepare_dmg_quantities", "pelicun/model/loss_model.py:RepairModel_DS.calculate", "pelicun/model/loss_model.py:RepairModel_LF.calculate"]}
{"id": "C121", "title": "Options on the command line reach the run", "statement": "Every option given on the command line of DL_calculation takes effect with its last value, options not given have their documented defaults, values may be attached with an equals sign, the order of different options does not matter, unambiguous beginnings of long names may be used, and with an unknown option nothing is run.", "quantifier": "all command lines, that is, all sequences of options and values", "why_tests_cant": "Tests try a few command lines; that no other combination, order, abbreviation or repetition loses an option is a statement about all of them.", "anchors": ["pelicun/tools/DL_calculation.py: main", "pelicun/base.py: str2bool"]}
{"id": "C122", "title": "The library is updated to what is asked for", "statement": "The target of a library update is taken as a commit if it is \"commit\" and a name of a commit, or the latest one, and as a version otherwise; what is downloaded is what the library has under this name, other targets are rejected, and the command itself does not touch the data before.", "quantifier": "all targets and all contents of the library", "why_tests_cant": "The targets and the answers of the remote library are unbounded.", "anchors": ["pelicun/cli.py: main", "pelicun/tools/dlml.py: dlml_update, validate_commit_sha", "pelicun/__init__.py"]}
{"id": "C123", "title": "Built-in damage processes have the effect they are named after", "statement": "With a built-in damage process, a realization in which the asset collapses (by its collapse fragility, by excessive demands, or by complete damage of the structure for Hazus) keeps collapse only; one that does not collapse but is irreparable keeps this only; all other realizations, and assets without these components, are not changed.", "quantifier": "all assets, component names, numbers of blocks and realizations, and all damage state samples", "why_tests_cant": "The process is put together from the names of the components; that no name or combination of present and missing components changes its effect concerns all assets.", "anchors": ["pelicun/assessment.py: default_damage_processes, calculate_damage", "pelicun/model/damage_model.py: perform_dmg_task, _perform_dmg_event"]}
{"id": "C124", "title": "Tables are read cell by cell", "statement": "Reading a table, from memory or from a file, leaves every number where it is and multiplies it by the factor of the unit of its variable: the factor of its unit, or 1 if the unit is blank or unknown. The row or column of the units is found whatever its capitals and is all that is taken out. The usual texts for missing values are missing values, other texts come back as they are. The same texts in a file and in memory give the same table. (As the code is, this fails for a number whose column also holds a text, which is not converted and is a text if it comes from a file; and a table with variables in columns is rejected if one column is text and there are units.)", "quantifier": "all tables (any labels, any cells that are numbers or texts), both orientations, all units and factors, all readings of texts as numbers", "why_tests_cant": "The cells and units of a table are unbounded; whether a cell is converted depends on all other cells of its column, so that examples of one column say nothing about another.", "anchors": ["pelicun/file_io.py:load_data", "pelicun/file_io.py:load_from_file", "pelicun/base.py:convert_dtypes", "pelicun/base.py:with_parsed_str_na_values", "pelicun/base.py:check_if_str_is_na"]}
{"id": "C125", "title": "The log holds every message and the file next to it every warning", "statement": "After any sequence of messages, warnings and uncaught exceptions in a process, at whatever point it stops, the log file of an assessment holds the messages sent to its log and the uncaught exceptions, in order, with all their lines, and what was in it stays there; the file with the same name and \"_warnings\" holds every warning that was emitted, as it was given, each once and in the order of their first appearance; with printing switched on, the screen shows the same entries as the log.", "quantifier": "All histories of creating logs, sending messages (any text, any number of lines, with or without time or indentation), adding and emitting warnings and uncaught exceptions, over any number of logs in a process; all file names.", "why_tests_cant": "Depends on the whole history and on the other logs of the process, and has to hold wherever the process stops.", "anchors": ["pelicun/base.py:Logger", "pelicun/base.py:LoggerRegistry", "pelicun/base.py:split_file_name"]}
{"id": "C126", "title": "A run reports the decision variables it asks for", "statement": "If the configuration sets at least one entry of DL/Losses/Repair/DecisionVariables to true, exactly the variables set to true are active in the loss calculation and totals are reported for these only, whatever earlier calculations of the assessment used; a run that asks for no variable reports none; a combination of wind and flood losses requires that Cost is asked for.", "quantifier": "all configurations, loss samples, loss maps, units and sequences of calculations of one assessment", "why_tests_cant": "The set of reported columns depends on every entry of the configuration, on the losses of each variable and on all calculations made before with the same assessment.", "anchors": ["pelicun/tools/DL_calculation.py:_parse_decision_variables", "pelicun/assessment.py:DLCalculationAssessment.calculate_loss", "pelicun/model/loss_model.py:LossModel.decision_variables", "pelicun/model/loss_model.py:LossModel.aggregate_losses"]}

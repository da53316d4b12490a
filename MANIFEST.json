{
 "claims": [
  {
   "property": "C01",
   "status": "proved",
   "theorems": [
    "C01_filters_and",
    "C01_filters_or",
    "C01_filters_xor_is_or",
    "C01_xor_documentation_refuted",
    "C01_filters_total",
    "C01_unknown_operator",
    "C01_no_filter_keeps_nothing",
    "C01_index_list"
   ],
   "note": "Full semantics of and/or/xor combination, totality and error cases. Finding: xor selects like or."
  },
  {
   "property": "C02",
   "status": "proved",
   "theorems": [
    "C02_equal_hash",
    "C02_object_equality",
    "C02_object_equality_sound",
    "C02_floats_refuted"
   ],
   "note": "Two-way data equality of float-free, class-free values implies equal hashes, and '==' is then data equality. Finding: floats within tolerance may be '!='."
  },
  {
   "property": "C03",
   "status": "proved",
   "theorems": [
    "C03_meaning",
    "C03_reflexive",
    "C03_symmetric",
    "C03_transitive",
    "C03_symmetric_refuted",
    "C03_transitive_refuted",
    "C03_classes_equal"
   ],
   "note": "Exact meaning, reflexivity, symmetry under equal sizes, transitivity from float-free values. Findings: asymmetric on extensions, not transitive on floats, classes never compared."
  },
  {
   "property": "C04",
   "status": "proved",
   "theorems": [
    "C04_content",
    "C04_insertion_order",
    "C04_attribute_order",
    "C04_name",
    "C04_range",
    "C04_overflow_refuted",
    "C04_sequence",
    "C04_middle",
    "C04_dict",
    "C04_mixed"
   ],
   "note": "Hash depends only on content; range. Finding: the hash overflows on 86 nested pairs."
  },
  {
   "property": "C05",
   "status": "proved",
   "theorems": [
    "C05_empty_diff_equal",
    "C05_same_value",
    "C05_same_keys",
    "C05_differences",
    "C05_paths",
    "C05_terminates",
    "C05_missing_name_refuted",
    "C05_swapped_refuted",
    "C05_types_refuted"
   ],
   "note": "Soundness of empty diffs, of reported paths, values, types and missing attributes; termination. Findings: name always reported missing, values swapped, 1 against True, classes raise."
  },
  {
   "property": "C06",
   "status": "proved",
   "theorems": [
    "C06_get",
    "C06_get_after_set",
    "C06_frame",
    "C06_above",
    "C06_set_twice",
    "C06_no_references",
    "C06_through_reference",
    "C06_ends_at_reference",
    "C06_get_after_set_refuted",
    "C06_integer_key_refuted",
    "C06_chained_references_refuted",
    "C06_circular_reference",
    "C06_no_such_key"
   ],
   "note": "Read, write, frame, containment, references. Values are trees (no aliasing); dictionaries keyed by tuples are left out; int() and str.isdigit are parameters. Findings: '#a' written and read at different keys, integer keys shadowed by a new string key, chained references not followed."
  },
  {
   "property": "C07",
   "status": "proved",
   "theorems": [
    "C07_accepts",
    "C07_json",
    "C07_content",
    "C07_round_trip",
    "C07_data_equal",
    "C07_class_name_refuted",
    "C07_reserved_key_refuted",
    "C07_tuples_refuted",
    "C07_extra_attribute_refuted"
   ],
   "note": "Total, json output, round trip, data equality. Class table (arguments, constructor, lookup by name) is a parameter; classes with their own to_dict or dict_to_object, files and numpy scalars are left out. Findings: class-name strings, reserved keys, tuples, attributes that are not arguments."
  },
  {
   "property": "C08",
   "status": "proved",
   "theorems": [
    "C08_no_dangling",
    "C08_keys",
    "C08_slash_refuted"
   ],
   "note": "to_dict with pointers modelled with a heap for the dictionaries the memo and the tree share; equality of objects is an arbitrary boolean function; ids are an arbitrary injective function. Failure on keys with a slash is C08_slash_refuted."
  },
  {
   "property": "C09",
   "status": "proved",
   "theorems": [
    "C09_same_data",
    "C09_identical",
    "C09_names_refuted",
    "C09_int_key_refuted",
    "C09_written_twice_refuted"
   ],
   "note": "Denotation of a dictionary with pointers is an inductive relation, so following pointers terminates. The three violations are refuted by concrete objects. id_method=False is not modelled (never used in the repository)."
  },
  {
   "property": "C10",
   "status": "proved",
   "theorems": [
    "C10_order",
    "C10_cycle_rejected",
    "C10_acyclic_accepted",
    "C10_dereferences",
    "C10_unrooted_never_ends_refuted",
    "C10_through_pointers_refuted",
    "C10_tuple_refuted"
   ],
   "note": "networkx is any function returning a topological order of the nodes, or nothing when there is a cycle (an instance is proved to exist); get_in_object_from_path, deserialize and the constructors as in C06 and C07. Loop of pointer_graph with fuel, no bound in the theorems. Keys are strings without a slash in C10_dereferences."
  },
  {
   "property": "C11",
   "status": "proved",
   "theorems": [
    "C11_copy",
    "C11_shared",
    "C11_data_equal",
    "C11_readable",
    "C11_originals",
    "C11_needs",
    "C11_tuples_refuted",
    "C11_names_refuted",
    "C11_tuple_key_refuted",
    "C11_renamed_argument_refuted",
    "C11_retry_refuted",
    "C11_close_floats_refuted"
   ],
   "note": "Objects live in a heap so that sharing is visible. Constructors are arbitrary functions of their arguments. The positive theorems assume that no object is held equal to one of its own parts. Points, vectors, files and objects as dictionary keys are not modelled."
  },
  {
   "property": "C12",
   "status": "proved",
   "theorems": [
    "C12_reflexive",
    "C12_any",
    "C12_class",
    "C12_list",
    "C12_dict",
    "C12_tuple",
    "C12_sequence",
    "C12_class_union",
    "C12_unions",
    "C12_optional",
    "C12_sound",
    "C12_plain",
    "C12_ends",
    "C12_tuple_length_refuted",
    "C12_sequence_any_refuted",
    "C12_sequence_refuted",
    "C12_optional_refuted",
    "C12_union_member_refuted",
    "C12_any_refuted",
    "C12_transitive_refuted"
   ],
   "note": "Soundness for every hierarchy (transitive, NoneType final, int below the ancestors of float). Generic typings (InstanceOf, Type...) only match themselves or raise and have no values here. Any is not a class, as in python 3.9 and 3.10."
  },
  {
   "property": "C13",
   "status": "proved",
   "theorems": [
    "C13_typed",
    "C13_accepts",
    "C13_none",
    "C13_builtin",
    "C13_list",
    "C13_optional",
    "C13_union",
    "C13_tuple_length_refuted",
    "C13_sequence_refuted",
    "C13_string_refuted",
    "C13_keys_refuted",
    "C13_unchecked_refuted",
    "C13_none_first_refuted",
    "C13_union_builtin_refuted"
   ],
   "note": "Floats are rationals, so float(int) never overflows. Classes, dict_to_object and hierarchy lengths are parameters. Bare Type and file values are left out."
  },
  {
   "property": "C14",
   "status": "proved",
   "theorems": [
    "C14_valid",
    "C14_hint",
    "C14_allow",
    "C14_items",
    "C14_lossless",
    "C14_integers",
    "C14_collision_refuted",
    "C14_stringified",
    "C14_idempotent"
   ],
   "note": "Floats and keys of other types are given by what str makes of them; integers are printed in decimal. Hints are shortened."
  },
  {
   "property": "C15",
   "status": "proved",
   "theorems": [
    "C15_roundtrip",
    "C15_nested",
    "C15_nested_error",
    "C15_distinct",
    "C15_optional",
    "C15_none",
    "C15_none_type_refuted",
    "C15_lossy",
    "C15_literal",
    "C15_total",
    "C15_extract_args",
    "C15_silent_refuted"
   ],
   "note": "serialize_annotation and deserialize_annotation with the regular expression, bracket counting, lookup tables and the arity checks and Union flattening of typing. A class is its full name; which names import is a parameter. Class names have no bracket, comma, space or end of line and do not begin with a dot. Literals nested in other annotations are read back when they also have no bracket. Tuple[()], Annotated and Literals of other things than strings are not modelled, nor is pretty_annotation."
  },
  {
   "property": "C16",
   "status": "proved",
   "theorems": [
    "C16_inputs",
    "C16_untyped",
    "C16_default_arguments",
    "C16_merged",
    "C16_method_schema",
    "C16_static_first",
    "C16_static_default_refuted",
    "C16_schema_untyped"
   ],
   "note": "_method_inputs, split_argspecs, split_default_args (merged or not) and the attributes of MemberSchema, with Python's integer indexing. The rule they are compared with aligns names and defaults from the right. The cache of inspect_arguments, keyword-only arguments and the reading of annotations are not modelled."
  },
  {
   "property": "C17",
   "status": "proved",
   "theorems": [
    "C17_filter",
    "C17_unknown_level",
    "C17_monotone",
    "C17_raise",
    "C17_add",
    "C17_type_check",
    "C17_type_check_info_refuted",
    "C17_valid",
    "C17_info_refuted",
    "C17_raises"
   ],
   "note": "Exact filter, unknown levels, monotone, raise, sum, type checks, validity at error and warning. Refuted: valid at level info; passed type checks reported for built-in types. What goes on inside the platform checks (reading back, copying) is C07-C11."
  },
  {
   "property": "C18",
   "status": "proved",
   "theorems": [
    "C18_empty_refuted",
    "C18_property_errors",
    "C18_file_default",
    "C18_mutable_default_refuted",
    "C18_dict_arguments_refuted",
    "C18_inside_refuted"
   ],
   "note": "The expected claim is refuted for every schema: C18_empty_refuted. Attribute checks characterised exactly. Refuted: default values of lists and dictionaries, dictionaries without two arguments, types inside lists and tuples."
  },
  {
   "property": "C19",
   "status": "proved",
   "theorems": [
    "C19_inputs_in_exactly_one_place",
    "C19_change_input_step",
    "C19_remove_input_from_step",
    "C19_remove_step",
    "C19_reset_steps",
    "C19_reorder_steps",
    "C19_add_step_display",
    "C19_odd_orders_refuted",
    "C19_insert_step",
    "C19_edit_one_step"
   ],
   "note": "Partition invariant over all editing sessions plus exact effect of each edit. Finding: odd orders (repeated or negative indices) break it."
  },
  {
   "property": "C20",
   "status": "proved",
   "theorems": [
    "C20_failed_edit_changes_nothing",
    "C20_failed_edit_keeps_inputs",
    "C20_failed_removal",
    "C20_atomicity_refuted",
    "C20_no_such_step",
    "C20_display_succeeds"
   ],
   "note": "Atomicity of every edit except three, whose exact failure effect is characterised."
  },
  {
   "property": "C21",
   "status": "proved",
   "theorems": [
    "C21_locked_has_default",
    "C21_lock_without_default_refused",
    "C21_lock_locks",
    "C21_unlock_unlocks",
    "C21_set_default_keeps_lock",
    "C21_reset_default_refuted",
    "C21_config_never_unlocks_refuted",
    "C21_copy",
    "C21_config"
   ],
   "note": "Invariant over all lock/unlock/default histories. Findings: resetting a default leaves a locked variable whose lock cannot be read; workflow configuration never unlocks."
  },
  {
   "property": "C22",
   "status": "proved",
   "theorems": [
    "C22_input_values_precedence",
    "C22_locked_inputs_ignored",
    "C22_step_by_step_lock_refuted"
   ],
   "note": "Exact starting values. Finding: step by step activation of inputs does not protect locked inputs."
  },
  {
   "property": "C23",
   "status": "proved",
   "theorems": [
    "C23_run_is_data_flow",
    "C23_data_flow_deterministic",
    "C23_run_succeeds",
    "C23_failures"
   ],
   "note": "Refinement to the inductive denotation of the diagram, for every set iteration order; soundness, success and failure cases."
  },
  {
   "property": "C24",
   "status": "proved",
   "theorems": [
    "C24_needed_blocks_once_in_order",
    "C24_free_variable_in_between_refuted"
   ],
   "note": "Exactly the needed blocks, once, in dependency order. Finding: a free variable fed by a block through a pipe hides a dependency."
  },
  {
   "property": "C25",
   "status": "proved",
   "theorems": [
    "C25_terminates",
    "C25_progress",
    "C25_completed",
    "C25_evaluate_next_starves_refuted",
    "C25_no_output_refuted"
   ],
   "note": "Termination without any well-formedness hypothesis; progress bounds, monotonicity and completion. Findings: evaluate_next_block can starve, a workflow without output never completes."
  },
  {
   "property": "C26",
   "status": "proved",
   "theorems": [
    "C26_session_is_data_flow",
    "C26_session_equals_run",
    "C26_changed_input_refuted"
   ],
   "note": "Any interleaving equals the one-shot run. Finding: changing an input half way leaves stale values."
  },
  {
   "property": "C27",
   "status": "proved",
   "theorems": [
    "C27_addresses_round_trip",
    "C27_addresses_distinct",
    "C27_pipe_found_by_its_addresses",
    "C27_shared_address_refuted",
    "C27_pipes_rebuilt"
   ],
   "note": "Round trip and injectivity of addresses, pipes found and rebuilt. Finding: a variable shared by two blocks has one address only."
  },
  {
   "property": "C28",
   "status": "proved",
   "theorems": [
    "C28_sequence",
    "C28_concatenate",
    "C28_concatenate_order_refuted",
    "C28_unpacker",
    "C28_unpacker_empty_dataset_refuted",
    "C28_flatten",
    "C28_empty_dataset_loop_refuted",
    "C28_product",
    "C28_foreach",
    "C28_sum_refuted",
    "C28_substraction",
    "C28_strings"
   ],
   "note": "Values are integers, strings, lists, tuples, datasets and opaque objects; the run of the sub-workflow of a ForEach is any function of its arguments."
  },
  {
   "property": "C29",
   "status": "proved",
   "theorems": [
    "C29_mask",
    "C29_indices",
    "C29_increasing",
    "C29_integer",
    "C29_slice",
    "C29_empty",
    "C29_sound",
    "C29_order_refuted"
   ],
   "note": "dataset.__getitem__ for integers, slices, masks and index lists: selected positions, matrix rows, errors; order and repetitions of index lists refuted."
  },
  {
   "property": "C30",
   "status": "proved",
   "theorems": [
    "C30_make",
    "C30_matrix",
    "C30_same_attributes",
    "C30_attributes",
    "C30_subclass",
    "C30_missing_refuted",
    "C30_order_refuted"
   ],
   "note": "Common attributes, matrix and __add__: objects, attributes and matrix of the sum; exact condition under which the advertised attributes are right; two refutations."
  },
  {
   "property": "C31",
   "status": "proved",
   "theorems": [
    "C31_sort",
    "C31_total",
    "C31_other_key"
   ],
   "note": "sort with numpy's argsort as a parameter that returns positions in increasing order."
  },
  {
   "property": "C32",
   "status": "proved",
   "theorems": [
    "C32_costs",
    "C32_front",
    "C32_marked",
    "C32_standardising",
    "C32_rounding_refuted"
   ],
   "note": "pareto_indexes over exact numbers with any standard deviation, and over binary64 floats for the refutation; exact set of marked points; costs taken from the dataset."
  },
  {
   "property": "C33",
   "status": "proved",
   "theorems": [
    "C33_sheets",
    "C33_successive",
    "C33_costs"
   ],
   "note": "pareto_sheets over exact numbers: partition, each sheet a front of what is left."
  },
  {
   "property": "C34",
   "status": "proved",
   "theorems": [
    "C34_manhattan",
    "C34_manhattan_value",
    "C34_truncation_refuted",
    "C34_euclidian",
    "C34_euclidian_value",
    "C34_inf_norm",
    "C34_mean",
    "C34_covariance_errors",
    "C34_covariance_value",
    "C34_covariance"
   ],
   "note": "Over exact rationals: the rounding of floats is not modelled. The euclidian distance is handled through its square, 'distance at most r' being 'square at most r*r'. mahalanobis_distance and the matrices built from covariance are not modelled."
  },
  {
   "property": "C35",
   "status": "proved",
   "theorems": [
    "C35_two_factors",
    "C35_three_factors",
    "C35_up_to_order",
    "C35_not_positive",
    "C35_large_refuted",
    "C35_root_example",
    "C35_as_list_example"
   ],
   "note": "Floats enter through true division, modelled as correctly rounded on 53 bits with an unbounded exponent; int(number ** 0.5) is a parameter assumed not below the integer square root, list(set(..)) a parameter listing each element once."
  },
  {
   "property": "C36",
   "status": "proved",
   "theorems": [
    "C36_index",
    "C36_outside",
    "C36_inverse",
    "C36_inverse_left",
    "C36_monotone",
    "C36_increasing_outside",
    "C36_interpolate",
    "C36_between",
    "C36_decreasing_refuted"
   ],
   "note": "Over exact rationals: the rounding of floats is not modelled."
  },
  {
   "property": "C37",
   "status": "proved",
   "theorems": [
    "C37_normalize",
    "C37_original",
    "C37_no_interval",
    "C37_dimensionless",
    "C37_dimensionless_back",
    "C37_equal",
    "C37_periods",
    "C37_equal_close",
    "C37_equal_plain",
    "C37_wrap_refuted",
    "C37_parameter_set",
    "C37_parameter_set_empty",
    "C37_vector",
    "C37_attributes",
    "C37_gradient",
    "C37_cma",
    "C37_polish",
    "C37_within",
    "C37_reach",
    "C37_start_refuted"
   ],
   "note": "Over exact rationals. scipy and cma are parameters; a solver is assumed to report the cost of the point it returns where stated. random_value and optimizer_bounds are not covered."
  },
  {
   "property": "C38",
   "status": "proved",
   "theorems": [
    "C38_full_factorial",
    "C38_bounds",
    "C38_distinct",
    "C38_lhs",
    "C38_montecarlo",
    "C38_methods",
    "C38_names_refuted"
   ],
   "note": "Over exact rationals. pyDOE.fullfact is a parameter that lists each combination of indices once in any order, pyDOE.lhs and random.uniform parameters that stay in the unit cube and between their bounds. The Dataset wrapping of make_doe is not modelled."
  },
  {
   "property": "C39",
   "status": "proved",
   "theorems": [
    "C39_all",
    "C39_long",
    "C39_full",
    "C39_twice_refuted",
    "C39_odd_refuted",
    "C39_cell",
    "C39_line",
    "C39_escape_refuted",
    "C39_head",
    "C39_announcement_columns_refuted"
   ],
   "note": "TableModel.v: MarkdownWriter tables; the text of a value is a parameter, str.capitalize is modelled on ASCII letters, limits are natural numbers."
  },
  {
   "property": "C40",
   "status": "proved",
   "theorems": [
    "C40_merge",
    "C40_merge_arguments_refuted",
    "C40_breakdown",
    "C40_ties",
    "C40_empty_key_refuted",
    "C40_order",
    "C40_keys"
   ],
   "note": "Objects are trees of values with identities; equality of objects is any equivalence relation (hypothesis); hashing is assumed consistent with it. Sets are read in iteration order, keys through their text."
  },
  {
   "property": "C41",
   "status": "proved",
   "theorems": [
    "C41_copy_same_diagram",
    "C41_same_diagram_same_values",
    "C41_copied_steps",
    "C41_locks_survive",
    "C41_output_off_blocks_refuted"
   ],
   "note": "Copy is a relabelling; values, steps and locks preserved. Detached variables, description and documentation are dropped by the code and are outside the model."
  },
  {
   "property": "C42",
   "status": "proved",
   "theorems": [
    "C42_arguments",
    "C42_name",
    "C42_run_starts_from"
   ],
   "note": "Exact characterisation of the values, failures and name read from the dictionary, composed with the precedence of C22."
  },
  {
   "property": "C43",
   "status": "proved",
   "theorems": [
    "C43_round_trip",
    "C43_data_equal",
    "C43_names_refuted"
   ],
   "note": "The object written and the object read are related by 'recovered' (TripSpec.v). Objects held equal are assumed to serialise alike, C43_names_refuted shows what happens otherwise. Dictionary keys are strings without slash, no attribute begins with # or /."
  },
  {
   "property": "C44",
   "status": "proved",
   "theorems": [
    "C44_instantiate",
    "C44_class_method",
    "C44_model_method",
    "C44_called_twice_refuted"
   ],
   "note": "User code is any function of the named arguments; keyword order is the order of the inputs."
  },
  {
   "property": "C45",
   "status": "proved",
   "theorems": [
    "C45_hash",
    "C45_reflexive",
    "C45_symmetric",
    "C45_same_hash",
    "C45_comparison_answers",
    "C45_copy",
    "C45_sound",
    "C45_same_values",
    "C45_steps",
    "C45_output",
    "C45_step_refuted",
    "C45_class_refuted",
    "C45_operator_refuted",
    "C45_defaults_refuted",
    "C45_blocks_refuted",
    "C45_transitive_refuted",
    "C45_raises_refuted"
   ],
   "note": "Hashes of strings, numbers, addresses, displays and configurations are arbitrary functions. Annotations of variables are compared as values. The remainder by 1e6 is that of integers. C45_sound and C45_same_values assume that both workflows have as many blocks, ports and pipes; C45_blocks_refuted and C45_transitive_refuted show what happens otherwise."
  },
  {
   "property": "C46",
   "status": "proved",
   "theorems": [
    "C46_branch",
    "C46_shown_is_data_flow",
    "C46_display_succeeds",
    "C46_display_failures",
    "C46_needed_block_refused",
    "C46_selector",
    "C46_display_evaluates_branch_only",
    "C46_workflow_run_shows_the_same",
    "C46_session_run_shows_the_same",
    "C46_selector_clash_refuted",
    "C46_changed_input_refuted",
    "C46_displayed_before_run_refuted",
    "C46_evaluated_once_refuted"
   ],
   "note": ""
  },
  {
   "property": "C47",
   "status": "proved",
   "theorems": [
    "C47_upstream_inputs",
    "C47_step_display_is_data_flow",
    "C47_upstream_inputs_suffice",
    "C47_only_upstream_inputs_matter",
    "C47_step_display_failures",
    "C47_no_output_refused"
   ],
   "note": ""
  },
  {
   "property": "C48",
   "status": "proved",
   "theorems": [
    "C48_copy",
    "C48_copy_behaves",
    "C48_to_run",
    "C48_saving",
    "C48_read_back",
    "C48_read_back_behaves",
    "C48_unsaved_value_raises",
    "C48_copy_equal",
    "C48_read_back_equal",
    "C48_equal_agree",
    "C48_equal_symmetric",
    "C48_resume_refuted",
    "C48_equal_continue_refuted",
    "C48_file_input_refuted"
   ],
   "note": ""
  },
  {
   "property": "C49",
   "status": "proved",
   "theorems": [
    "C49_written",
    "C49_rebuilt",
    "C49_lock_raises",
    "C49_same_values",
    "C49_documentation",
    "C49_filter_unreadable",
    "C49_names_distinct",
    "C49_nested_documentation_refuted",
    "C49_free_variable_lock_refuted",
    "C49_default_refuted",
    "C49_lock_refuted",
    "C49_same_name_refuted",
    "C49_set_attribute_refuted",
    "C49_deprecated_refuted",
    "C49_position_refuted",
    "C49_arguments_refuted",
    "C49_quote_refuted"
   ],
   "note": ""
  },
  {
   "property": "C50",
   "status": "proved",
   "theorems": [
    "C50_saved",
    "C50_missing_value",
    "C50_imports",
    "C50_values",
    "C50_executed",
    "C50_same_start",
    "C50_names_distinct",
    "C50_locked_refuted",
    "C50_nested_refuted",
    "C50_instances_refuted",
    "C50_untyped_refuted",
    "C50_instance_of_refuted",
    "C50_subclass_refuted",
    "C50_repr_refuted"
   ],
   "note": ""
  },
  {
   "property": "C51",
   "status": "proved",
   "theorems": [
    "C51_split",
    "C51_labels",
    "C51_names",
    "C51_merge",
    "C51_select",
    "C51_centroids",
    "C51_centroids_gap",
    "C51_families",
    "C51_labels_refuted",
    "C51_names_refuted",
    "C51_sort_refuted",
    "C51_families_refuted"
   ],
   "note": ""
  },
  {
   "property": "C52",
   "status": "proved",
   "theorems": [
    "C52_sheets",
    "C52_never_ends",
    "C52_too_many_sheets"
   ],
   "note": ""
  },
  {
   "property": "C53",
   "status": "proved",
   "theorems": [
    "C53_sheets",
    "C53_visited",
    "C53_one_row",
    "C53_writes",
    "C53_columns_refuted"
   ],
   "note": ""
  },
  {
   "property": "C54",
   "status": "proved",
   "theorems": [
    "C54_round_trip",
    "C54_dictionaries",
    "C54_row_ignored",
    "C54_line_refuted",
    "C54_text_refuted"
   ],
   "note": ""
  },
  {
   "property": "C55",
   "status": "proved",
   "theorems": [
    "C55_catalog",
    "C55_duplicates",
    "C55_reads",
    "C55_missing",
    "C55_duplicates_refuted",
    "C55_empty_refuted"
   ],
   "note": ""
  },
  {
   "property": "C56",
   "status": "proved",
   "theorems": [
    "C56_written",
    "C56_read_back",
    "C56_locks_added",
    "C56_restored",
    "C56_stable",
    "C56_saved_again",
    "C56_same_values",
    "C56_unlocked_port_refuted",
    "C56_lost_refuted"
   ],
   "note": ""
  },
  {
   "property": "C57",
   "status": "proved",
   "theorems": [
    "C57_columns",
    "C57_rightwards",
    "C57_no_gap",
    "C57_one_end",
    "C57_other_beginning",
    "C57_cycle",
    "C57_networkx",
    "C57_order_refuted",
    "C57_more_columns_refuted"
   ],
   "note": ""
  },
  {
   "property": "C58",
   "status": "proved",
   "theorems": [
    "C58_graph",
    "C58_layout",
    "C58_answers",
    "C58_one_end",
    "C58_two_ends_refuted"
   ],
   "note": ""
  },
  {
   "property": "C59",
   "status": "proved",
   "theorems": [
    "C59_once",
    "C59_best",
    "C59_four",
    "C59_constant",
    "C59_lost_refuted",
    "C59_plot",
    "C59_ranked"
   ],
   "note": ""
  },
  {
   "property": "C60",
   "status": "proved",
   "theorems": [
    "C60_settings",
    "C60_displays",
    "C60_first",
    "C60_tree",
    "C60_no_source",
    "C60_unserialised",
    "C60_pictures_refuted",
    "C60_renamed_refuted",
    "C60_stacked",
    "C60_selector_refuted",
    "C60_mpl_plot",
    "C60_errors",
    "C60_alias_refuted",
    "C60_other_decorator",
    "C60_view_and_export"
   ],
   "note": ""
  },
  {
   "property": "C61",
   "status": "proved",
   "theorems": [
    "C61_formats",
    "C61_file",
    "C61_zip",
    "C61_zip_read",
    "C61_to_zip",
    "C61_zip_lost_refuted",
    "C61_shadowed_refuted",
    "C61_kinds",
    "C61_decorators",
    "C61_docx",
    "C61_state_zip",
    "C61_run_zip",
    "C61_block_file",
    "C61_archive",
    "C61_archived_exports",
    "C61_state_zip_error",
    "C61_wrong_kind"
   ],
   "note": ""
  },
  {
   "property": "C62",
   "status": "proved",
   "theorems": [
    "C62_settings",
    "C62_one_bad_block_refuted",
    "C62_state_refuted",
    "C62_path",
    "C62_dangling_refuted",
    "C62_after_display",
    "C62_display",
    "C62_documentation_refuted",
    "C62_same_selector_refuted",
    "C62_samples",
    "C62_two_attributes_refuted",
    "C62_called_twice",
    "C62_below",
    "C62_generic_names",
    "C62_generic_distinct",
    "C62_odd_digits"
   ],
   "note": ""
  },
  {
   "property": "C63",
   "status": "proved",
   "theorems": [
    "C63_parsed",
    "C63_trimmed_unique",
    "C63_return",
    "C63_none",
    "C63_all_or_nothing",
    "C63_description_kept_refuted",
    "C63_prettyname"
   ],
   "note": ""
  },
  {
   "property": "C64",
   "status": "proved",
   "theorems": [
    "C64_form",
    "C64_described",
    "C64_refused",
    "C64_default",
    "C64_json",
    "C64_read_back",
    "C64_none_default_refuted",
    "C64_optional_inside_refuted",
    "C64_none_first_refuted",
    "C64_files_refuted",
    "C64_list_default_refuted",
    "C64_tuple_default_refuted",
    "C64_measure_refuted"
   ],
   "note": ""
  },
  {
   "property": "C65",
   "status": "proved",
   "theorems": [
    "C65_forms",
    "C65_built",
    "C65_written",
    "C65_default_dict",
    "C65_default_value",
    "C65_class",
    "C65_documentation",
    "C65_undefined_refuted",
    "C65_optional_refuted"
   ],
   "note": ""
  },
  {
   "property": "C66",
   "status": "proved",
   "theorems": [
    "C66_table",
    "C66_empty",
    "C66_last_objects_refuted",
    "C66_all_objects_refuted",
    "C66_long_first_refuted"
   ],
   "note": "The last objects are never shown; a first column with a long name raises."
  },
  {
   "property": "C67",
   "status": "proved",
   "theorems": [
    "C67_copy",
    "C67_equal",
    "C67_equivalence",
    "C67_binary_file",
    "C67_text_file",
    "C67_from_stream_refuted",
    "C67_newlines_refuted",
    "C67_text_template",
    "C67_binary_template",
    "C67_templates_plain",
    "C67_extension_refuted",
    "C67_json_file",
    "C67_failed_save_refuted",
    "C67_json_text",
    "C67_json_stream_refuted",
    "C67_json_bytes",
    "C67_script_refuted",
    "C67_run_script",
    "C67_script_file",
    "C67_stream_template",
    "C67_classes",
    "C67_stream_failures",
    "C67_gap",
    "C67_no_script"
   ],
   "note": "Streams cannot be written and read back, failed saves lose the file, old scripts show through."
  },
  {
   "property": "C68",
   "status": "proved",
   "theorems": [
    "C68_document",
    "C68_levels_limited_refuted",
    "C68_levels_refuted",
    "C68_number_signs_refuted",
    "C68_dashes_refuted",
    "C68_dash_cell_refuted",
    "C68_empty_cell_refuted"
   ],
   "note": "Levels are lost or wrong, lines with dashes are lost, long titles raise."
  },
  {
   "property": "C69",
   "status": "proved",
   "theorems": [
    "C69_value",
    "C69_empty_dict_refuted",
    "C69_order_refuted",
    "C69_complex_refuted",
    "C69_docx",
    "C69_header",
    "C69_memory",
    "C69_unfinished_refuted",
    "C69_state_refuted",
    "C69_run",
    "C69_output_refuted",
    "C69_info_dict",
    "C69_info_unknown",
    "C69_time",
    "C69_contents",
    "C69_anchor",
    "C69_anchor_refuted"
   ],
   "note": "Descriptions of states always raise, those of runs raise for outputs without attributes; complex attributes and empty dictionaries."
  },
  {
   "property": "C70",
   "status": "proved",
   "theorems": [
    "C70_generate",
    "C70_regular",
    "C70_once",
    "C70_resume",
    "C70_root",
    "C70_again_refuted"
   ],
   "note": "The package dectree is trusted to go through nodes depth first; generators can be gone through once."
  },
  {
   "property": "C71",
   "status": "proved",
   "theorems": [
    "C71_size",
    "C71_no_dict",
    "C71_list_refuted",
    "C71_attributes_refuted",
    "C71_analysis",
    "C71_analysis_total",
    "C71_no_objects_refuted"
   ],
   "note": "Lists have no size, AttributeError; attributes of ordinary objects are not counted."
  },
  {
   "property": "C72",
   "status": "proved",
   "theorems": [
    "C72_keys",
    "C72_arguments",
    "C72_failures",
    "C72_cache",
    "C72_names_refuted",
    "C72_default_dict_refuted",
    "C72_forms",
    "C72_static_refuted",
    "C72_numbers",
    "C72_shift_refuted",
    "C72_no_method",
    "C72_reserved",
    "C72_form_fails",
    "C72_one_form_fails_refuted",
    "C72_underscore"
   ],
   "note": "Forms name their inputs while arguments are read by number, so the default dictionary of a method is ignored."
  },
  {
   "property": "C73",
   "status": "proved",
   "theorems": [
    "C73_cut",
    "C73_cut_again",
    "C73_tree_refuted",
    "C73_region",
    "C73_region_nodes",
    "C73_region_missed_refuted",
    "C73_region_far_refuted"
   ],
   "note": "A tree is cut to its root; regions miss nodes and hold ancestors at any distance."
  },
  {
   "property": "C74",
   "status": "proved",
   "theorems": [
    "C74_mix",
    "C74_fraction",
    "C74_flat",
    "C74_order",
    "C74_loops_refuted",
    "C74_package",
    "C74_valid_refuted",
    "C74_export_refuted",
    "C74_pipes",
    "C74_pipes_order"
   ],
   "note": "is_valid and export_format_from_selector never give what they are for."
  },
  {
   "property": "C75",
   "status": "proved",
   "theorems": [
    "C75_offered",
    "C75_failures",
    "C75_later",
    "C75_last",
    "C75_spare_refuted"
   ],
   "note": "Displays that need inputs of no step are offered at every step."
  },
  {
   "property": "C76",
   "status": "proved",
   "theorems": [
    "C76_indices",
    "C76_success",
    "C76_read",
    "C76_activable",
    "C76_failures",
    "C76_not_atomic_refuted",
    "C76_ignored",
    "C76_nothing_given",
    "C76_last_key"
   ],
   "note": "Failing calls are not atomic."
  },
  {
   "property": "C77",
   "status": "proved",
   "theorems": [
    "C77_drawn",
    "C77_nodes",
    "C77_edges",
    "C77_label_refuted"
   ],
   "note": "A label without a name is not possible."
  },
  {
   "property": "C78",
   "status": "proved",
   "theorems": [
    "C78_form",
    "C78_once",
    "C78_runs",
    "C78_lock_refuted",
    "C78_twice_refuted",
    "C78_foreign"
   ],
   "note": "Inputs that are not of the workflow are all named None, so the last of them replaces the others."
  },
  {
   "property": "C79",
   "status": "proved",
   "theorems": [
    "C79_numbers",
    "C79_classes",
    "C79_unreachable_refuted",
    "C79_order"
   ],
   "note": "Elements that cannot be reached are not always left out."
  },
  {
   "property": "C80",
   "status": "proved",
   "theorems": [
    "C80_get",
    "C80_set",
    "C80_get_after_set",
    "C80_deep_refuted",
    "C80_frame",
    "C80_reads_only",
    "C80_again",
    "C80_again_refuted",
    "C80_get_error"
   ],
   "note": "Deep names are documented for SetModelAttribute but never work; runs change their inputs."
  },
  {
   "property": "C81",
   "status": "proved",
   "theorems": [
    "C81_match",
    "C81_serialized",
    "C81_error",
    "C81_both_ways",
    "C81_chain_refuted"
   ],
   "note": "Chains of free variables share an address."
  },
  {
   "property": "C82",
   "status": "proved",
   "theorems": [
    "C82_type",
    "C82_no_type",
    "C82_back",
    "C82_builtin_refuted",
    "C82_left_over_refuted",
    "C82_errors"
   ],
   "note": "Values with builtins do not come back; what is left over is dropped."
  },
  {
   "property": "C83",
   "status": "proved",
   "theorems": [
    "C83_listed",
    "C83_no_output",
    "C83_needed",
    "C83_secondary"
   ],
   "note": ""
  },
  {
   "property": "C84",
   "status": "proved",
   "theorems": [
    "C84_back",
    "C84_builtin_refuted",
    "C84_tuple_refuted",
    "C84_other_refuted",
    "C84_bare",
    "C84_older",
    "C84_total"
   ],
   "note": "Builtins in brackets, tuples and nested dictionaries do not come back."
  },
  {
   "property": "C85",
   "status": "proved",
   "theorems": [
    "C85_joins",
    "C85_best_above",
    "C85_above",
    "C85_winner_refuted",
    "C85_errors",
    "C85_below_refuted",
    "C85_columns",
    "C85_square_refuted",
    "C85_sizes"
   ],
   "note": "Fails when a point is the best for all costs; points may be below a border with three costs or more; square matrices of columns are read as rows."
  },
  {
   "property": "C86",
   "status": "proved",
   "theorems": [
    "C86_short",
    "C86_no_class",
    "C86_errors",
    "C86_no_module",
    "C86_module_refuted",
    "C86_apart_refuted"
   ],
   "note": "Any, type variables and the type of None keep a module; classes of the same name have the same text."
  },
  {
   "property": "C87",
   "status": "proved",
   "theorems": [
    "C87_serializable",
    "C87_jsonable",
    "C87_answer",
    "C87_object_refuted",
    "C87_class_refuted",
    "C87_key_refuted"
   ],
   "note": "Raises on objects that cannot be serialised; wrong on classes and on dictionaries with tuples as keys."
  },
  {
   "property": "C88",
   "status": "proved",
   "theorems": [
    "C88_cells",
    "C88_table",
    "C88_longer_refuted",
    "C88_beyond_refuted",
    "C88_no_row",
    "C88_paragraphs",
    "C88_paragraphs_only",
    "C88_headings",
    "C88_level",
    "C88_all_tables",
    "C88_one_table",
    "C88_no_tables",
    "C88_ends"
   ],
   "note": "Rows longer than the first one spill into the next line of the table, or raise."
  },
  {
   "property": "C89",
   "status": "proved",
   "theorems": [
    "C89_proper",
    "C89_none",
    "C89_empty",
    "C89_annotation",
    "C89_unknown_refuted",
    "C89_other_error_refuted",
    "C89_no_colon_refuted",
    "C89_hints",
    "C89_kind"
   ],
   "note": "Raises on the docstrings it should refuse, but for TypeError."
  },
  {
   "property": "C90",
   "status": "proved",
   "theorems": [
    "C90_mean",
    "C90_clusters",
    "C90_total",
    "C90_empty",
    "C90_widths_refuted"
   ],
   "note": "Means of clusters of objects of several classes may have different lengths."
  },
  {
   "property": "C91",
   "status": "proved",
   "theorems": [
    "C91_widths",
    "C91_shown",
    "C91_one_line_refuted",
    "C91_empty_refuted",
    "C91_unset"
   ],
   "note": "Raises on sheets with one line; empty cells count as 'None'."
  },
  {
   "property": "C92",
   "status": "proved",
   "theorems": [
    "C92_basic",
    "C92_documented",
    "C92_undocumented",
    "C92_failed",
    "C92_failed_inside",
    "C92_nested_refuted",
    "C92_each",
    "C92_each_refuted"
   ],
   "note": "Inputs of WorkflowBlock never have their documentation; ForEach fails for all inputs when one is not found."
  },
  {
   "property": "C93",
   "status": "proved",
   "theorems": [
    "C93_copy",
    "C93_lost_refuted",
    "C93_required_refuted",
    "C93_removed_refuted",
    "C93_unknown_refuted"
   ],
   "note": "A class defined again under the same full name is copied with the arguments of the first one."
  }
 ]
}
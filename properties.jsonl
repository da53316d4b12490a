{"id": "C01", "title": "Filter lists keep exactly the objects their operator accepts, in order", "statement": "Applying a filter list with operator 'and' returns, in the original order and without duplication or loss, exactly the objects accepted by every filter; with 'or', exactly those accepted by at least one. With 'xor' the selection is the inclusive 'or' (so it is not the exclusive or announced by the documentation as soon as an object satisfies two filters). An unknown operator raises. An empty filter list keeps nothing.", "quantifier": "for every list of objects, every non-empty list of filters (any attribute, comparison and bound) and every operator", "why_tests_cant": "the number of objects and filters is unbounded and the interleaving of accepted and rejected objects is arbitrary", "anchors": ["dessia_common/core.py:DessiaFilter.get_booleans_index", "dessia_common/core.py:DessiaFilter.apply", "dessia_common/core.py:FiltersList.combine_booleans_lists", "dessia_common/core.py:FiltersList.apply"]}
{"id": "C02", "title": "Data-equal values have the same hash", "statement": "Two float-free, class-free values (numbers, strings, sequences, dictionaries, objects, nested at will) that data equality considers equal in both directions have the same data hash, so object '==' coincides with data equality on them. With floats the implication fails: two objects may be data-equal within tolerance and still be '!=' because their hashes differ.", "quantifier": "for every pair of nested values of any depth and width", "why_tests_cant": "hash/equality consistency has to hold for every pair of arbitrarily nested values; tests only sample pairs", "anchors": ["dessia_common/core.py:DessiaObject.__eq__", "dessia_common/core.py:DessiaObject._data_hash", "dessia_common/core.py:data_eq", "dessia_common/utils/diff.py:choose_hash"]}
{"id": "C03", "title": "Data equality is reflexive, and symmetric/transitive where dictionaries have the same size", "statement": "Data equality of a NaN-free value with itself is true. On values whose corresponding dictionaries have the same number of keys and corresponding objects the same attributes it is symmetric; from a float-free value it is transitive. In general it is not symmetric (a dictionary is data-equal to any dictionary that extends it), and not transitive on floats. Any two classes are data-equal.", "quantifier": "for all nested values of any depth and width", "why_tests_cant": "equivalence laws quantify over all pairs and triples of unbounded nested values", "anchors": ["dessia_common/core.py:data_eq", "dessia_common/core.py:dict_data_eq", "dessia_common/core.py:sequence_data_eq"]}
{"id": "C04", "title": "Data hash is bounded and independent of insertion order", "statement": "The hash of an object lies in [0, 100000) and does not depend on its name, on the order in which its attributes were set, nor on the insertion order of dictionaries with comparable keys or of dictionaries with non comparable keys. It may fail to exist: the sum of the hashes of a few tens of nested lists is too large for a float.", "quantifier": "for every object and every reordering of attributes / keys", "why_tests_cant": "all permutations of all dictionaries cannot be enumerated", "anchors": ["dessia_common/core.py:DessiaObject._data_hash", "dessia_common/utils/diff.py:dict_hash", "dessia_common/utils/diff.py:sequence_hash"]}
{"id": "C05", "title": "An empty diff means the values are data-equal, and a value has an empty diff with itself", "statement": "If the diff of two values reports nothing then the two values are data-equal; dictionaries with an empty diff have the same key set. The diff of a NaN-free value with itself reports nothing. Every path reported by a diff extends the path the diff was started from and designates two values that differ. When an object differs from another, its name is wrongly reported as missing; when the second dictionary is larger, the two values are reported in the wrong order.", "quantifier": "for every pair of nested values", "why_tests_cant": "unbounded nesting and every combination of missing keys, types and values", "anchors": ["dessia_common/utils/diff.py:diff", "dessia_common/utils/diff.py:dict_diff", "dessia_common/utils/diff.py:sequence_diff", "dessia_common/utils/diff.py:Diff.__add__"]}
{"id": "C06", "title": "Deep path access: what is set at a path is read back, and nothing else moves", "statement": "Reading a path gives the part of the structure its segments designate (sequence positions from the front or from the back, string keys before integer keys, attributes), whichever of '', '/' and '#/' leads the path. After setting a value at a path, reading that path gives the value back; a part that contains the one set becomes itself with the rest of the path set in it; every other part keeps its value and its path; setting twice keeps the last value. Going down through a reference reads from the designated place, unless that place holds a reference too, which raises; a path that ends at a reference returns it; a circular reference raises RecursionError. Two paths break the rule: '#a' is written under the key '#a' and read under 'a', and writing where an integer key is read leaves the entry as it was and adds a string key.", "quantifier": "for every nested structure, every path whose first segment starts with something else than '#' and '/', and every value", "why_tests_cant": "paths and structures are unbounded; the frame part quantifies over every other path", "anchors": ["dessia_common/utils/helpers.py:get_in_object_from_path", "dessia_common/utils/helpers.py:set_in_object_from_path", "dessia_common/utils/helpers.py:extract_segment_from_object"]}
{"id": "C07", "title": "Serialisation without pointers round-trips", "statement": "Serialising without pointers succeeds on every value with json leaves whose objects are named, and gives dictionaries, lists, numbers and strings only. Deserialising that never fails and gives back the same shape: same classes, same dictionary keys in the same order, every serialised attribute that is a constructor argument; it is data-equal to the original when the attributes that count in data equality are constructor arguments. This requires that no string names a class, that no dictionary uses the keys '$ref' and 'object_class', and that constructors keep their arguments: a string naming a class comes back as the class, a dictionary with a reserved key raises, an attribute that is not an argument is lost. Tuples come back as lists, except attributes annotated as tuples.", "quantifier": "for every object tree of any depth, every set of classes", "why_tests_cant": "the number of object shapes is infinite", "anchors": ["dessia_common/serialization.py:serialize", "dessia_common/serialization.py:dict_to_object", "dessia_common/serialization.py:deserialize", "dessia_common/core.py:DessiaObject"]}
{"id": "C08", "title": "Serialisation with pointers never leaves a dangling pointer", "statement": "In the dictionary produced by serialising with pointers, every '$ref' (in the main tree and inside the shared references) designates an entry that exists in '_references', whatever the sharing structure and whatever objects are held equal; serialising with pointers succeeds whenever serialising without does, and gives the same keys plus '_references'. This holds when keys are strings without '/' and none is '$ref': a repeated object under a key with a slash makes serialisation fail.", "quantifier": "for every object graph (tree of objects with arbitrary equal/shared sub-objects), every choice of unique ids", "why_tests_cant": "sharing patterns are unbounded and ids are random", "anchors": ["dessia_common/serialization.py:serialize_with_pointers", "dessia_common/serialization.py:_find_in_memo", "dessia_common/serialization.py:_serialize_and_set_in_memo", "dessia_common/serialization.py:add_references"]}
{"id": "C09", "title": "Serialisation with pointers denotes the same data as serialisation without", "statement": "Replacing every pointer by what it designates, repeatedly, terminates and gives the serialisation without pointers up to the order of keys, as long as objects that compare equal serialise alike and keys are strings without '/'. When equal objects differ by name only, the second one comes back with the name of the first one; a repeated object under an integer key leaves a spurious string key behind; an object first met inside one that stands alone in database is written twice when repeated elsewhere.", "quantifier": "for every object graph and every choice of unique ids", "why_tests_cant": "needs an argument about every sharing pattern and about termination of pointer resolution", "anchors": ["dessia_common/serialization.py:serialize_with_pointers", "dessia_common/serialization.py:serialize_dict_with_pointers", "dessia_common/serialization.py:serialize_sequence_with_pointers", "dessia_common/serialization.py:serialize"]}
{"id": "C10", "title": "Pointers are dereferenced in dependency order", "statement": "The deserialisation order of a document has no repetition and lists each path after everything it depends on: the target of its pointer, and every path inside it on the way to a pointer or to a target. A document in which something depends on itself is rejected with an exception; any other document whose pointers go from the root straight to their target has an order, and deserialising it gives what it describes, every pointer standing for what its target describes. A pointer that does not start from '#' makes deserialisation run for ever; a target found through one pointer is reached but one found through two pointers raises; an argument annotated as a tuple comes back as a list when there is a pointer inside.", "quantifier": "for every document with string keys and every topological order the graph library may choose", "why_tests_cant": "the pointer graphs are arbitrary finite graphs; the order of sets is not deterministic between interpreter runs", "anchors": ["dessia_common/serialization.py:pointer_graph", "dessia_common/serialization.py:deserialization_order", "dessia_common/serialization.py:find_references", "dessia_common/serialization.py:dereference_jsonpointers", "dessia_common/serialization.py:dict_to_object", "dessia_common/graph.py:explore_tree_from_leaves"]}
{"id": "C11", "title": "A deep copy is data-equal to its original", "statement": "Deep-copying an object whose constructor arguments are attributes, at any depth, always succeeds, changes no existing object and makes one new object for each object met, from its arguments or those of an object held equal to it, so that copies are shared exactly where the originals are held equal. The copy is data-equal to the original when objects held equal have the same data; otherwise it may not be, for floats that are close or names that differ. Tuples are turned into lists, a dictionary with a tuple as key and an argument not stored under its name make the copy fail. When only an object is held equal to itself, a copy that succeeds has met no such failure at any depth; whether it succeeds or raises, the objects that existed are unchanged. An object whose constructor raises a TypeError is copied again with an empty memo, which loses what it shared.", "quantifier": "for every nested value, every sharing pattern", "why_tests_cant": "unbounded nesting and sharing, memo reused across siblings", "anchors": ["dessia_common/utils/copy.py:deepcopy_value", "dessia_common/utils/copy.py:deepcopy_dict", "dessia_common/utils/copy.py:deepcopy_sequence", "dessia_common/utils/copy.py:search_memo", "dessia_common/core.py:DessiaObject.__deepcopy__"]}
{"id": "C12", "title": "Type matching is sound for plugging a value into a port", "statement": "Matching is reflexive, accepts anything against Any and a class against any of its ancestors; lists, dictionaries and tuples match item by item, an optional list, dictionary or tuple as what is optional. On types made of classes, lists and dictionaries the answer is exactly subtyping, without exception. When a type matches another one, every value of the first is a value of the second (None being accepted everywhere and integers as floats), provided tuples have the same number of arguments. Tuples of different lengths are accepted, tuples of any length raise against two items, a class does not match its own optional and two optionals of distinct classes raise, a list does not match a union that has it as a member, and matching is not transitive.", "quantifier": "for every pair of nested type annotations and every class hierarchy", "why_tests_cant": "annotations nest arbitrarily and the class hierarchy is open", "anchors": ["dessia_common/utils/types.py:typematch", "dessia_common/utils/types.py:complex_first_type_match", "dessia_common/utils/types.py:heal_type", "dessia_common/utils/types.py:particular_typematches"]}
{"id": "C13", "title": "Method arguments received from the outside are deserialised into the declared type or rejected", "statement": "Deserialising a JSON argument against a built-in type, a list, tuple or optional of such types either raises or returns a value of that type; an argument of the declared type is accepted and its data kept, integers given where floats are expected becoming floats; None is always accepted. A union of classes gives what the class with the longest hierarchy not raising KeyError gives. A tuple argument with more items than declared is silently truncated, with fewer items it is accepted; tuples of any length are refused from two items on; a string given for a list is split in characters; dictionaries, literals, measures and objects are not checked; an optional written with None first refuses everything, and so do unions of built-in types.", "quantifier": "for every declared type built from these constructors and every JSON value", "why_tests_cant": "all type/value combinations at all depths", "anchors": ["dessia_common/serialization.py:deserialize_argument", "dessia_common/serialization.py:deserialize_with_typing"]}
{"id": "C14", "title": "BSON validity check accepts exactly the storable documents", "statement": "The BSON validity check accepts a value if and only if it is made of numbers, strings, None, sequences and dictionaries whose keys are strings without dots (or integers when allowed). A hint is given exactly for the values refused. Stringifying keys gives string keys at any depth, keeps under each string the last of the values whose key has this string form, and loses nothing unless two keys have the same string form, which an integer and a string may have; it makes a document without such keys valid exactly when the string forms of its keys are free of dots. A second pass changes nothing.", "quantifier": "for every nested value", "why_tests_cant": "nested documents of unbounded depth", "anchors": ["dessia_common/utils/types.py:is_bson_valid", "dessia_common/core.py:stringify_dict_keys"]}
{"id": "C15", "title": "Serialised type annotations parse back to the same annotation", "statement": "Every annotation built from builtins, importable classes, Any, Type, List, Dict, Tuple (fixed or of any length), Union, InstanceOf, method and attribute types and Literal is printed to a string that parses back to the same annotation, so distinct annotations have distinct strings, except when a tuple of any length occurs somewhere inside another tuple: then it never parses back. Tuple[X, ...] is then an error, and a fixed tuple an error or, silently, another annotation. Literal values parse back exactly when they have no space, quote, comma or end of line. Optional[T] is printed as T, Union[None, T] as Type whatever T, None among the arguments of a builtin generic such as list[None] is a TypeError and the type of None elsewhere is read back as Type, iterators are read as lists, type variables as Type, and view types are not read. Parsing always ends.", "quantifier": "for every annotation of any nesting", "why_tests_cant": "the grammar is recursive; a bracket-matching bug shows up only at particular nestings", "anchors": ["dessia_common/schemas/core.py:serialize_annotation", "dessia_common/schemas/core.py:deserialize_annotation", "dessia_common/schemas/core.py:extract_args", "dessia_common/schemas/core.py:TypingProperty", "dessia_common/schemas/core.py:HeterogeneousSequence.annotation_from_serialized"]}
{"id": "C16", "title": "Default values are attached to the right arguments", "statement": "The inputs a workflow block derives from a function signature, and the default arguments a schema derives from a method signature, give each argument the default value Python itself would use, and no default to the others. A non-reserved argument without annotation is an error in both. For a static function the schema forgets the default of the first argument: it is listed without default even when Python has one.", "quantifier": "for every signature (any number of arguments and defaults)", "why_tests_cant": "index arithmetic over unbounded signatures", "anchors": ["dessia_common/schemas/core.py:split_default_args", "dessia_common/workflow/blocks.py:_method_inputs"]}
{"id": "C17", "title": "Check levels filter monotonically and decide validity", "statement": "The checks above a level are exactly those whose severity is at least that level, in order; raising the level never adds checks; an exception is raised iff such checks exist. Concatenating check lists commutes with filtering. An unknown level is an error, unless there is no check at all. A type check fails exactly on values that are not instances of the type. An object is valid at level error or warning exactly when it can be read back and copied equal, its document is storable and its displays and schemas can be computed and written. No object is ever valid at level info, as the checks it passes count against it, and exceptions met on the way are not turned into checks.", "quantifier": "for every list of checks and every level", "why_tests_cant": "all lists of checks", "anchors": ["dessia_common/checks.py:CheckList.checks_above_level", "dessia_common/checks.py:CheckList.raise_if_above_level", "dessia_common/checks.py:CheckList.__add__", "dessia_common/checks.py:type_check", "dessia_common/core.py:DessiaObject.is_valid", "dessia_common/core.py:DessiaObject.check_platform"]}
{"id": "C18", "title": "Schema validation reports the issues of every attribute", "statement": "The check list of a class schema is expected to contain the issues of each of its attributes. In the code it is always empty, and every schema is declared valid, because the accumulated list is rebound instead of extended; checking raises when the check of one attribute does. Attribute by attribute, an error is reported exactly for a class that is not a DessiaObject, a union of standalone and non-standalone classes, a wrong number of arguments, a dictionary whose keys are not strings or whose values are not built-in. The default value of a list or dictionary is never reported, and a dictionary without two arguments raises instead of being reported. The types inside a list or a tuple are never checked.", "quantifier": "for every schema, whatever issues its attributes have", "why_tests_cant": "a universally quantified failure: no attribute issue ever reaches the result", "anchors": ["dessia_common/schemas/core.py:Schema.check_list", "dessia_common/schemas/core.py:SchemaAttributeCollection.check_list", "dessia_common/schemas/core.py:Schema.is_valid", "dessia_common/schemas/core.py:DynamicDict.check_list", "dessia_common/schemas/core.py:HomogeneousSequence.check_list", "dessia_common/schemas/core.py:UnionProperty.check_list", "dessia_common/schemas/core.py:HeterogeneousSequence.check_list"]}
{"id": "C19", "title": "Workflow inputs are never lost or duplicated by step editing", "statement": "Through any sequence of successful step edits (move inputs to a step, take an input out of a step, insert, remove, rename, reorder, reset steps, change order of inputs, attach displays), every workflow input stays in exactly one place: the spare inputs or exactly one step. Removing or resetting steps gives their inputs back. Two edits violate it when given unusual arguments: an order of inputs that repeats an index, and an order of steps using negative indices.", "quantifier": "for every workflow and every sequence of edits of any length", "why_tests_cant": "edit histories are unbounded", "anchors": ["dessia_common/workflow/core.py:Workflow.change_input_step", "dessia_common/workflow/core.py:Workflow.remove_input_from_step", "dessia_common/workflow/core.py:Workflow.reorder_step_inputs", "dessia_common/workflow/core.py:Workflow.insert_step", "dessia_common/workflow/core.py:Workflow.reorder_steps", "dessia_common/workflow/core.py:Workflow.remove_step", "dessia_common/workflow/core.py:Workflow.reset_steps", "dessia_common/workflow/core.py:Workflow.add_step_display"]}
{"id": "C20", "title": "A failed step edit leaves the workflow unchanged", "statement": "A step edit that raises leaves spare inputs and steps as they were, with three exceptions. Taking out of its step an input that is in no step raises after having duplicated the input among the spare inputs. Moving several inputs with a partly wrong list of indices, and attaching a display whose selector does not exist, raise after having moved inputs; no input is lost or duplicated by these two.", "quantifier": "for every workflow state and every edit with arbitrary arguments", "why_tests_cant": "exception safety over all states and arguments", "anchors": ["dessia_common/workflow/core.py:Workflow.remove_input_from_step", "dessia_common/workflow/core.py:Workflow.change_input_step", "dessia_common/workflow/core.py:Workflow.find_input_step"]}
{"id": "C21", "title": "A locked variable has a default value, and lock state survives a copy", "statement": "Through any sequence of locks and unlocks a variable reported as locked has a default value, and locking without one is refused. Resetting the default of a locked input breaks this: from then on reading whether it is locked raises until it is unlocked, locked again with a value or given a default.", "quantifier": "for every sequence of lock/unlock/default edits", "why_tests_cant": "unbounded histories", "anchors": ["dessia_common/workflow/core.py:Variable.lock", "dessia_common/workflow/core.py:Variable.unlock", "dessia_common/workflow/core.py:Variable.locked", "dessia_common/workflow/core.py:Workflow.set_input_default"]}
{"id": "C22", "title": "Locked inputs cannot be overridden, user values beat defaults", "statement": "The values a run starts from are: the default value for each locked input whatever the user gives, the user value for each other input that the user gives, the default value for the remaining inputs that have one, and nothing for the others.", "quantifier": "for every workflow, every user value mapping", "why_tests_cant": "all combinations of locked/default/user values on any number of inputs", "anchors": ["dessia_common/workflow/core.py:Workflow.input_values", "dessia_common/workflow/core.py:Workflow.default_values"]}
{"id": "C23", "title": "A workflow run computes the value its diagram denotes", "statement": "If a run succeeds, its output is the value obtained by composing block functions along the pipes from the input values, independently of the order in which blocks are listed or selected; if the diagram denotes a value for the output and all inputs are given, the run succeeds and returns it.", "quantifier": "for every well-formed acyclic workflow (any number of blocks and pipes), every input, every block function, every iteration order of sets", "why_tests_cant": "schedules and diagrams are unbounded, set iteration order varies between interpreter runs", "anchors": ["dessia_common/workflow/core.py:Workflow.run", "dessia_common/workflow/core.py:WorkflowState.continue_run", "dessia_common/workflow/core.py:WorkflowState._evaluate_block", "dessia_common/workflow/core.py:WorkflowState._activate_variable", "dessia_common/workflow/core.py:Workflow.runtime_blocks"]}
{"id": "C24", "title": "A run evaluates each needed block exactly once, after the blocks it depends on, and nothing else", "statement": "The sequence of block evaluations recorded by a run contains each block the output depends on exactly once, no other block, and each block appears after every block feeding it.", "quantifier": "for every workflow, every input and every iteration order of sets", "why_tests_cant": "all diagrams and all schedules", "anchors": ["dessia_common/workflow/core.py:WorkflowState.continue_run", "dessia_common/workflow/core.py:WorkflowState.block_evaluation", "dessia_common/workflow/core.py:WorkflowState._activable_blocks", "dessia_common/workflow/core.py:Workflow.runtime_blocks"]}
{"id": "C25", "title": "Run execution terminates and progress is a monotone fraction", "statement": "Continuing a run terminates on every workflow, even a cyclic or disconnected one; progress stays between 0 and 1, never decreases while blocks are evaluated, and equals 1 exactly when every block needed by the output has been evaluated, in which case and only in which case the state can be turned into a finished run.", "quantifier": "for every workflow and every reachable state", "why_tests_cant": "termination and monotonicity over all diagrams", "anchors": ["dessia_common/workflow/core.py:WorkflowState.continue_run", "dessia_common/workflow/core.py:WorkflowState.progress", "dessia_common/workflow/core.py:WorkflowState.to_workflow_run"]}
{"id": "C26", "title": "Step-by-step execution and one-shot execution agree", "statement": "Starting from the same inputs, evaluating blocks one at a time in any allowed order and then continuing the run gives the same output and the same pipe values as running at once.", "quantifier": "for every interleaving of single block evaluations", "why_tests_cant": "the number of interleavings grows exponentially", "anchors": ["dessia_common/workflow/core.py:WorkflowState.block_evaluation", "dessia_common/workflow/core.py:WorkflowState.evaluate_next_block", "dessia_common/workflow/core.py:WorkflowState.continue_run"]}
{"id": "C27", "title": "Variable addresses identify variables", "statement": "The address of a variable of a workflow (block index, side, port, or rank among the non-block variables) designates that variable again, two different variables have different addresses, and pipes rebuilt from their serialised addresses connect the same variables.", "quantifier": "for every workflow and every variable of it", "why_tests_cant": "all diagrams", "anchors": ["dessia_common/workflow/core.py:Workflow.variable_indices", "dessia_common/workflow/core.py:Workflow.variable_from_index", "dessia_common/workflow/core.py:deserialize_pipes", "dessia_common/workflow/core.py:initialize_workflow"]}
{"id": "C28", "title": "Collection blocks compute list concatenation, cartesian product and mapping", "statement": "Flatten concatenates its elements, Product returns every combination exactly once per choice of positions, in lexicographic order, with as many combinations as the product of the lengths, Sequence returns the values of its inputs in order, Concatenate the concatenation of its operands (which must be lists, or datasets, all of the same class), ForEach runs its workflow on every element with the other inputs bound unchanged and keeps order and length, the first exception propagating, Unpacker returns the requested elements, negative indices counting from the end, Substraction subtracts, ConcatenateStrings joins. Violations: Sum adds the variables instead of their values and always fails; the order of a Concatenate is that of the dictionary of values and not that of the inputs; looping over an empty dataset never ends; unpacking an empty dataset gives an empty list for every index.", "quantifier": "for every input list of any length", "why_tests_cant": "unbounded lists", "anchors": ["dessia_common/workflow/blocks.py:Flatten.evaluate", "dessia_common/workflow/blocks.py:Product.evaluate", "dessia_common/workflow/blocks.py:ForEach.evaluate", "dessia_common/workflow/blocks.py:WorkflowBlock.evaluate", "dessia_common/workflow/blocks.py:Sequence.evaluate", "dessia_common/workflow/blocks.py:Concatenate.evaluate", "dessia_common/workflow/blocks.py:Unpacker.evaluate", "dessia_common/workflow/blocks.py:Sum.evaluate", "dessia_common/workflow/blocks.py:Substraction.evaluate", "dessia_common/workflow/blocks.py:ConcatenateStrings.evaluate", "dessia_common/utils/helpers.py:concatenate", "dessia_common/datatools/dataset.py:Dataset.__getitem__"]}
{"id": "C29", "title": "Selecting from a dataset with a list of indices", "statement": "Selecting with a boolean mask of the right length keeps exactly the marked objects in order; a mask of another length is rejected. Selecting with a list of indices returns the designated objects for increasing lists; in general order and repetitions of the index list are lost, contrary to the documentation. An integer designates an object with python's indexing rules, a slice takes objects and matrix rows at the same positions, and any key on an empty dataset gives an empty python list. Selections of a dataset with an aligned matrix have an aligned matrix.", "quantifier": "for every dataset and every selection list", "why_tests_cant": "all datasets, masks and index lists", "anchors": ["dessia_common/datatools/dataset.py:Dataset.__getitem__", "dessia_common/datatools/dataset.py:Dataset._pick_from_boolist", "dessia_common/datatools/dataset.py:Dataset._indexlist_to_booleanlist"]}
{"id": "C30", "title": "Concatenating datasets keeps the data matrix aligned", "statement": "When two datasets have the same common attributes in the same order, the concatenated dataset lists all objects in order and its cached matrix has one row per object and one column per common attribute, each cell being that object's attribute. When the second dataset only has some of the attributes of the first, the concatenation advertises attributes its objects do not have, and exactly then; when the common attributes come in another order, cached matrices are concatenated with mixed up columns. Only plain datasets can be added.", "quantifier": "for every pair of datasets and every cache state", "why_tests_cant": "all datasets and caching histories", "anchors": ["dessia_common/datatools/dataset.py:Dataset.__add__", "dessia_common/datatools/dataset.py:Dataset.common_attributes", "dessia_common/datatools/dataset.py:Dataset.matrix"]}
{"id": "C31", "title": "Sorting a dataset permutes its objects and keeps the matrix aligned", "statement": "Sorting by an attribute yields a permutation of the objects, ordered by that attribute (reverse order when descending), with the cached matrix permuted the same way. It succeeds for the number of any common attribute and the name of any attribute of all objects; a key of another type raises UnboundLocalError.", "quantifier": "for every dataset, attribute and direction", "why_tests_cant": "all datasets", "anchors": ["dessia_common/datatools/dataset.py:Dataset.sort"]}
{"id": "C32", "title": "Pareto front: non-dominated, mutually incomparable, dominating everything", "statement": "The points returned as Pareto optimal are not dominated by any point, no two of them are weakly comparable, and every point is weakly dominated by a returned one. Of several optimal points with identical costs only the first is returned. Standardising the costs does not change the answer in exact arithmetic; in floating point it may return a dominated point instead of the point dominating it. The costs used are the values of the given attributes, one row per object.", "quantifier": "for every finite set of points in any dimension", "why_tests_cant": "universal optimality claim over all points", "anchors": ["dessia_common/datatools/dataset.py:Dataset.pareto_indexes", "dessia_common/datatools/dataset.py:Dataset.pareto_points"]}
{"id": "C33", "title": "Pareto sheets partition the points into successive fronts", "statement": "The successive Pareto sheets and the remaining points form a partition of the dataset; each sheet is the Pareto front of what is left by the previous ones; every point of a sheet is weakly dominated by a point of the previous sheet.", "quantifier": "for every dataset, cost matrix and number of sheets", "why_tests_cant": "all datasets and numbers of sheets", "anchors": ["dessia_common/datatools/dataset.py:Dataset.pareto_sheets"]}
{"id": "C34", "title": "Distances are metrics and covariance a positive symmetric form", "statement": "On vectors of equal length the Manhattan and the euclidian distances are non-negative, zero only between equal vectors, symmetric and satisfy the triangle inequality; on vectors of different lengths both silently cut the longest, so that different vectors can be at distance zero. The infinite norm is the largest absolute component (ValueError without component). The mean lies between the bounds of the values and moves with them. Covariance raises ValueError on vectors of different lengths and ZeroDivisionError on empty ones; otherwise it is the mean of products minus the product of means, symmetric, non-negative on the diagonal and zero there only for constant vectors, unchanged by translations, and its square is at most the product of the variances.", "quantifier": "for all vectors of rational numbers", "why_tests_cant": "vectors of any length; the triangle and Cauchy-Schwarz inequalities cannot be sampled exhaustively", "anchors": ["dessia_common/datatools/metrics.py:manhattan_distance", "dessia_common/datatools/metrics.py:euclidian_distance", "dessia_common/datatools/metrics.py:inf_norm", "dessia_common/datatools/metrics.py:covariance", "dessia_common/datatools/metrics.py:diff_list", "dessia_common/datatools/metrics.py:mean"]}
{"id": "C35", "title": "Factor grids are sound and complete below 2^53", "statement": "For a positive number below 2^53 the two-factor grids are exactly the pairs of positive integers whose product is the number, each once; the complete three-factor grids are exactly the triples, each once; the incomplete ones hold every triple up to the order of its numbers and no two that are the same up to order. Zero has no grid, a negative number raises TypeError. From 2^53 on quotients are rounded and a grid can have another product than the number.", "quantifier": "for every number, and every listing order of sets", "why_tests_cant": "all numbers below 2^53; the correctness of the floating-point divisibility test needs an argument about rounding", "anchors": ["dessia_common/utils/algebra.py:number2factor", "dessia_common/utils/algebra.py:number3factor", "dessia_common/utils/algebra.py:get_incomplete_factors"]}
{"id": "C36", "title": "List interpolation inverts on increasing lists", "statement": "The index of a value is searched in the first pair of consecutive points around it: when that pair goes up, interpolating at the index gives the value back; when it goes down it gives the mirrored value instead; when it is flat ZeroDivisionError is raised. On a strictly increasing list of at least two points the index of a value in the range is within the list bounds, strictly monotone, and the two functions are inverse of each other. A value around which there is no pair is rejected, or given the index of the nearest end when extrapolation is allowed (a single point has no pair, its own value is rejected). Interpolation at an integer index is the object there, between two indices the weighted sum of the two objects, outside the list ValueError.", "quantifier": "for every list, value and index", "why_tests_cant": "all lists and rational values", "anchors": ["dessia_common/utils/interpolation.py:istep_from_value_on_list", "dessia_common/utils/interpolation.py:interpolate_from_istep"]}
{"id": "C37", "title": "Normalised parameters and dimensionless variables map back and forth", "statement": "Normalising a parameter value then taking the original value is the identity and conversely; values within the bounds are those that map into [0, 1]; the same holds for the dimensionless variables of the optimiser, whose unit cube maps into the bounds. Equality of parameter values is reflexive, symmetric and unaffected by adding periods, and equal values are within tolerance up to periods; but values on both sides of a period are held different however close. A parameter set bounds each parameter by two of its values. Attributes given to the model are the components of the vector under the name of their bound and the fixed values, bounds having priority. The model an optimisation returns has the cost it returns, and polishing returns the better of the two models; the polishing search starts from the attributes of the model as if they were dimensionless.", "quantifier": "for all bounds, values, vectors, models, costs and solvers", "why_tests_cant": "all rational bounds and values, all solvers", "anchors": ["dessia_common/core.py:Parameter.normalize", "dessia_common/core.py:Parameter.original_value", "dessia_common/core.py:Parameter.are_values_equal", "dessia_common/core.py:ParameterSet.parameters", "dessia_common/optimization.py:BoundedAttributeValue.dimensionless_to_value", "dessia_common/optimization.py:InstantiatingModelOptimizer.vector_to_attributes_values", "dessia_common/optimization.py:InstantiatingModelOptimizer.optimize_cma_then_gradient"]}
{"id": "C38", "title": "Sampling explores the bounds, full factorial every combination once", "statement": "The full factorial exploration creates as many instances as the product of the numbers of values, each combination of sampled values exactly once, the values of an attribute being evenly spaced from its lowest to its highest; no two samples are the same when no interval is reduced to a point. Latin hypercube and Monte-Carlo samples, as full factorial ones, are within the bounds of every attribute. Constant attributes keep their value in every sample, and each instance is built from the arguments of its sample. An unknown method raises NotImplementedError. When two attributes have the same name one argument is lost.", "quantifier": "for every list of sampled and constant attributes and every number of values", "why_tests_cant": "unbounded number of attributes and values", "anchors": ["dessia_common/datatools/sampling.py:ClassSampler.full_factorial", "dessia_common/datatools/sampling.py:ClassSampler._build_parameter_grid", "dessia_common/datatools/sampling.py:ClassSampler.lhs", "dessia_common/datatools/sampling.py:ClassSampler.montecarlo", "dessia_common/datatools/sampling.py:ClassSampler._get_doe"]}
{"id": "C39", "title": "Markdown tables print each row once", "statement": "With an even limit, a table with more rows than the limit prints its first and its last rows once each, half of the limit on each side, and announces the number of rows in between; with no limit, at most half the limit rows, or exactly the limit, every row is printed once in order. Between half the limit and the limit the middle rows are printed twice; with an odd limit one row more than announced is left out. A cell is cut exactly when longer than the print limit, and each row is one line with one column per value, as in the header, as long as values contain neither separators nor line feeds: they are not escaped, and the announcement always has two columns.", "quantifier": "for every table content, limit and values", "why_tests_cant": "all table sizes and limits", "anchors": ["dessia_common/exports.py:MarkdownWriter._content_table", "dessia_common/exports.py:MarkdownWriter._table_line", "dessia_common/exports.py:MarkdownWriter._head_table", "dessia_common/exports.py:MarkdownWriter._string_in_table"]}
{"id": "C40", "title": "Breakdown keeps the shallowest path", "statement": "Merging two breakdowns keeps every object of both, with the path of least depth (that of the first on ties). The breakdown of a value lists every object that can be reached from it by a non-empty path, once per class and equality, with a path to it (or to an equal object) that has the fewest dots of all, the first one visited on ties, and nothing else; classes listed have at least one object, classes and their objects are in the order in which they are first visited. Merging changes its first argument and shares dictionaries with its second one; keys with dots count as several keys, and objects behind empty keys are not listed.", "quantifier": "for all breakdown dictionaries, all nested values and any equivalence as object equality", "why_tests_cant": "all dictionaries and all nestings; ties and aliasing show up only on particular shapes", "anchors": ["dessia_common/breakdown.py:merge_breakdown_dicts", "dessia_common/breakdown.py:breakdown", "dessia_common/breakdown.py:object_breakdown"]}
{"id": "C41", "title": "A copied workflow is the same diagram over its own variables", "statement": "Deep copying a workflow gives blocks, pipes, output and inputs in the same order over new variables, none shared with the original; the copy computes the same values from the same inputs, steps hold the copies of their variables, and locked inputs are locked in the copy with the same value.", "quantifier": "for every well-formed workflow, steps and locks", "why_tests_cant": "all diagrams, in particular any sharing of free variables between pipes", "anchors": ["dessia_common/workflow/core.py:Workflow.__deepcopy__", "dessia_common/workflow/core.py:Workflow.copy_pipes", "dessia_common/workflow/core.py:Workflow.copy_nbv_pipe", "dessia_common/workflow/core.py:Workflow.copy_step"]}
{"id": "C42", "title": "Run arguments are read for the unlocked inputs only, and missing ones are detected", "statement": "Reading the arguments of a run from a dictionary keeps one value for each unlocked input the dictionary mentions and no other, ignores values given to locked inputs, and fails if and only if an unlocked input without default is missing or its value does not deserialise. The run then starts from the default of locked inputs, the given value of the others, and their default when none is given. The name is the value of the input meant for it, otherwise the string found after the inputs.", "quantifier": "for every workflow, locks, defaults and dictionary", "why_tests_cant": "all combinations over any number of inputs", "anchors": ["dessia_common/workflow/core.py:Workflow.dict_to_arguments", "dessia_common/workflow/core.py:Workflow.input_values"]}
{"id": "C43", "title": "What is written with pointers can be read, and gives the object back", "statement": "An object that serialises without pointers also serialises with pointers, whichever of its parts are held equal as long as these serialise alike; the dictionary written is always readable, reading follows every pointer, and the object read has the same classes, the same shape and the same value for every serialised attribute that is a constructor argument. When data equality only looks at such attributes the object read is data-equal to the one written. Parts held equal that differ in their names come back with one name.", "quantifier": "for every object, any nesting, any sharing, any equality between its parts and any topological order of the pointers", "why_tests_cant": "composition of two algorithms over unbounded structures and sharing patterns", "anchors": ["dessia_common/core.py:SerializableObject.to_dict", "dessia_common/serialization.py:serialize_with_pointers", "dessia_common/serialization.py:dict_to_object", "dessia_common/serialization.py:dereference_jsonpointers"]}
{"id": "C44", "title": "Method blocks call user code with each input under its own name", "statement": "InstantiateModel calls its class with the value of each input under the name of that input and fails with KeyError when one has no value; ClassMethod and ModelMethod pass the inputs that have a value and no other, in order. ModelMethod calls the method of the object given as first input and returns its result and the object. It calls the method with the progress callback first and, on a TypeError, once more without it: a method that raises a TypeError of its own is run twice.", "quantifier": "for every list of inputs, dictionary of values and user code", "why_tests_cant": "all lists of arguments and all user code", "anchors": ["dessia_common/workflow/blocks.py:InstantiateModel.evaluate", "dessia_common/workflow/blocks.py:ClassMethod.evaluate", "dessia_common/workflow/blocks.py:ModelMethod.evaluate"]}
{"id": "C45", "title": "Equal workflows are the same workflow, up to what is not compared", "statement": "A workflow has a hash exactly when every step, also in the workflows inside its blocks, displays a variable; otherwise hash and == raise a TypeError. Where it is defined, equality is reflexive, it is symmetric, implies equal hashes, and holds between a workflow and its copy. Two equal workflows with as many blocks, ports and pipes have the same diagram up to the order of pipes, inputs with the same names, types and locks, blocks of the same class and configuration, and so the same values; steps have the same labels and displays. Not compared are: the class a block instantiates or sets an attribute of, the operator of a filter, the method of an export, default values, the output but through its hash, and whatever one of the two has beyond the other, so that equality is not transitive and ignores whole blocks. Comparing blocks of different classes may raise an AttributeError, in one order only; it never does when every block of the left workflow checks the class first.", "quantifier": "for every pair of workflows, nested at any depth, and all hash functions", "why_tests_cant": "needs pairs of unequal workflows whose hashes collide, for unknown hashes", "anchors": ["dessia_common/workflow/core.py:Workflow._data_hash", "dessia_common/workflow/core.py:Workflow._data_eq", "dessia_common/workflow/core.py:Workflow._equivalent_pipes", "dessia_common/workflow/core.py:Step.__hash__", "dessia_common/workflow/core.py:Block.equivalent", "dessia_common/workflow/blocks.py:InstantiateModel.equivalent", "dessia_common/workflow/blocks.py:Filter.equivalent"]}
{"id": "C46", "title": "Displays and exports show data flow values, before and after completion", "statement": "Whatever the order in which inputs are given, blocks evaluated, displayed and exported, what is shown for a block is its first result in the data flow, and displays never disturb the execution. A display evaluates only the block displayed and blocks the output does not need that lead to it. On a complete execution with all its inputs, displaying or exporting a block the output does not need succeeds whenever its evaluations do. The completed run, which only keeps memorized pipes, shows and exports exactly what the full state would, failures included. A displayed block the output needs is refused on a complete execution. Displays are found by selector, so a block whose selector is taken by a later display is refused unless it leads to it. When an input changes after a display, when a display precedes the completed run, or when several ways lead to the displayed block, the value may be stale, the display fail, or blocks run twice, depending on the order of sets.", "quantifier": "for every workflow, every sequence of requests and every iteration order of sets", "why_tests_cant": "all diagrams, all interleavings and all set orders", "anchors": ["dessia_common/workflow/core.py:Workflow.secondary_branch_blocks", "dessia_common/workflow/core.py:Workflow._branch_blocks", "dessia_common/workflow/core.py:Workflow.branch_by_selector", "dessia_common/workflow/core.py:WorkflowState.block_display", "dessia_common/workflow/core.py:WorkflowState.evaluate_branch", "dessia_common/workflow/core.py:WorkflowState.export", "dessia_common/workflow/core.py:WorkflowState.to_workflow_run"]}
{"id": "C47", "title": "A form step asks exactly the inputs its display needs", "statement": "The inputs asked for a variable are, each once, the unlocked inputs of the workflow read by the blocks that its block depends on. Once they are given, whatever the other inputs, the display of the step succeeds when its evaluations do and shows the value of the variable in the data flow; the value does not depend on the other inputs. A workflow without output cannot display a step.", "quantifier": "for every workflow, variable and values", "why_tests_cant": "all diagrams and all partial assignments of inputs", "anchors": ["dessia_common/workflow/core.py:Workflow.compute_step_display", "dessia_common/workflow/core.py:Workflow.upstream_inputs", "dessia_common/workflow/core.py:Workflow.upstream_branch", "dessia_common/workflow/core.py:Workflow.block_upstream_variables"]}
{"id": "C48", "title": "Copies and saved states of an execution are what they stand for", "statement": "At any point of an execution, whatever was run, displayed, copied, saved or read back before, copying the state succeeds and gives a state with the same inputs, flags, output, evaluated blocks and values, that answers every further request as the original and is equal to it. The copy of a completed run loses the values of pipes that are neither memorised nor fed by an input, and equals it exactly when there is none. A state becomes a completed run exactly when all the blocks the output needs were evaluated; the run keeps all but the values of pipes neither memorised nor fed by an input. Saving succeeds exactly when inputs, but files, output and values of memorised pipes serialise; reading back gives the same inputs but files, which take their default values, the same flags, output and evaluated blocks, and among values those saved or fed by an input. A state read back that kept all the values it may still read answers as the original, and equals it exactly when no value was lost. So an execution saved between two blocks cannot be resumed: evaluating a block that reads a value that was not saved raises a KeyError. Equality is symmetric, agrees on class, progress, output, inputs but files and flags, but not on values: two equal states may continue to different outputs. A state with a file among its inputs is in general not equal to what is read back.", "quantifier": "for every workflow, every sequence of inputs, evaluations, displays, exports, copies, saves and readings, and every serialisation that reads back what it wrote", "why_tests_cant": "all diagrams, all interleavings of executions and saves", "anchors": ["dessia_common/workflow/core.py:WorkflowState.__deepcopy__", "dessia_common/workflow/core.py:WorkflowState.to_dict", "dessia_common/workflow/core.py:WorkflowState.dict_to_object", "dessia_common/workflow/core.py:WorkflowState._data_eq", "dessia_common/workflow/core.py:WorkflowState._data_hash", "dessia_common/workflow/core.py:WorkflowRun.__init__"]}
{"id": "C49", "title": "The script of a workflow builds it again", "statement": "Writing a workflow as a script succeeds and imports exactly the classes the script names, as long as no SetModelAttribute block is involved. When in addition a name stands for one class and every locked input of a block, at any level, gets a default value from the constructor of its block, executing the script gives a workflow with the same name, blocks, pipes, inputs and output in the same order, nested workflows included, which computes the same values; otherwise locking raises a ValueError. Inputs take names and default values from constructors and are locked when they were; variables outside blocks keep their names only; the documentation is kept without nested workflows, and is that of the last nested one otherwise; ConcatenateStrings loses its position. No two variables of a script share a name. A Filter makes the script unreadable, a SetModelAttribute or a deprecated multiplot makes it fail with a NameError, other deprecated displays cannot be written, two classes of the same name are mixed up, a quote in a text breaks the script, and a scatter view on one attribute comes back on its characters.", "quantifier": "for every workflow, nested at any depth, whose texts hold no quotes nor backslashes, and every signature of user classes", "why_tests_cant": "a script generator and the interpreter of what it generates, over unbounded nesting", "anchors": ["dessia_common/workflow/core.py:Workflow._to_script", "dessia_common/workflow/core.py:Workflow.to_script", "dessia_common/workflow/core.py:Workflow.pipes_to_script", "dessia_common/workflow/utils.py:blocks_to_script", "dessia_common/workflow/utils.py:nonblock_variables_to_script", "dessia_common/workflow/utils.py:ToScriptElement", "dessia_common/workflow/blocks.py:ForEach._to_script", "dessia_common/workflow/blocks.py:SetModelAttribute._to_script", "dessia_common/workflow/blocks.py:Filter._to_script"]}
{"id": "C50", "title": "The script of a run starts it again from the same values", "statement": "Saving the script of a completed run raises a KeyError when an input has no value; otherwise, the types of inputs having schemas, it succeeds exactly when all the inputs it writes are typed, and raises an AttributeError if not. Each variable outside blocks is written with its value, and so is each input of a block that the script of the workflow does not name, all in variables of different names; the script imports what the script of the workflow does and what the declared types of these inputs need. The value written for the latter is its own only when no input before it is named: otherwise it is the one as many ranks before as there are named inputs. Inputs are named when they are locked, or when a nested workflow locks or wires an input of the same numbers, so a run with a locked input is restarted with wrong values. Executing the script builds the workflow again and gives to its run the values written: those that repr writes come back as they were, instances and files are built anew, tuples of them and empty tuples become lists. So when no input is named and all values are written in full, the run starts from the same values. A value whose class is not imported by the declared types raises a NameError, an input of type InstanceOf or a list mixing instances with other values a SyntaxError.", "quantifier": "for every workflow, nested at any depth, every assignment of types and values to its inputs", "why_tests_cant": "all workflows, with a generator and the interpreter of what it generates", "anchors": ["dessia_common/workflow/core.py:WorkflowRun._to_script", "dessia_common/workflow/core.py:WorkflowRun._split_input_values", "dessia_common/workflow/core.py:WorkflowRun.to_script", "dessia_common/workflow/core.py:WorkflowRun.save_script_to_stream", "dessia_common/workflow/utils.py:update_imports", "dessia_common/workflow/utils.py:generate_input_string", "dessia_common/workflow/utils.py:process_value", "dessia_common/workflow/utils.py:generate_default_value", "dessia_common/workflow/utils.py:is_object_or_object_sequence"]}
{"id": "C51", "title": "Clusters keep the label of each object", "statement": "Splitting a clustered dataset gives one dataset per label, with exactly the objects of this label in their order, whatever the order of sets. The label reported for each is the one of its objects when the set of labels is listed like the set without -1, followed by -1, and, the objects being distinct, only then: the set of -1 and 7 is not, so a selection of two clusters can exchange their labels. Up to the label 9 the datasets are then named after their labels; with more clusters the names are shifted, being in alphabetical order. Merging what was split gives back the same objects, with the same labels when those reported are right. Picking by slice, mask or list of indices gives what a dataset gives, each object with its label; sorting moves the objects and leaves the labels in place. With labels 0 ... n-1 and -1, the real centroid of each cluster is the first of its objects that none is nearer to the mean than, and the families of points plotted are the positions of each label; with another label, such as after a selection, centroids raise an IndexError and the points are in no family.", "quantifier": "for every list of objects and labels, every order of sets, mean and distance", "why_tests_cant": "all labellings and all iteration orders of sets", "anchors": ["dessia_common/datatools/cluster.py:ClusteredDataset.clustered_sublists", "dessia_common/datatools/cluster.py:ClusteredDataset._merge_sublists", "dessia_common/datatools/cluster.py:ClusteredDataset._pick_from_slice", "dessia_common/datatools/cluster.py:ClusteredDataset._pick_from_boolist", "dessia_common/datatools/cluster.py:ClusteredDataset.cluster_real_centroids", "dessia_common/datatools/cluster.py:ClusteredDataset._point_families"]}
{"id": "C52", "title": "Pareto sheets as clusters: each object labelled by its front, or no answer at all", "statement": "When a point is left after the requested number n of Pareto sheets, from_pareto_sheets returns, each object there once, labelled 0 to n: for each k below n, the objects labelled k are the Pareto front of those with at least this label. When no point is left it never returns, as iterating over an empty dataset never ends; that is the case as soon as there are at most n objects.", "quantifier": "for every list of objects, rational costs and number of sheets", "why_tests_cant": "all cost matrices; non termination", "anchors": ["dessia_common/datatools/cluster.py:ClusteredDataset.from_pareto_sheets", "dessia_common/datatools/dataset.py:Dataset.__getitem__", "dessia_common/datatools/dataset.py:Dataset.pareto_sheets"]}
{"id": "C53", "title": "The Excel export shows each object of each class once", "statement": "Exporting an object to a workbook writes first the sheet of the object, then one sheet for each class of the objects inside, in the order a breakdown visits them, titled by the class, with one row per object, equal objects sharing theirs. A sheet has the module and class on its second row, the public attributes in alphabetical order on its third; then each row has a path that leads to the object, its name, and its values: texts as they are, floats rounded to six digits, other plain values as their text, containers by their number of items, and an object as a path to an object equal to it with a link to its row in the sheet of its class. The export succeeds exactly when the object has a name, all names are scalars and no set holds objects. The names of columns are those of the last object of the class, so that values of objects with other attributes stand under wrong names.", "quantifier": "for every object, any nesting and sharing and any equality between its parts", "why_tests_cant": "all structures and equalities", "anchors": ["dessia_common/exports.py:XLSXWriter.write", "dessia_common/exports.py:XLSXWriter.write_object_to_row", "dessia_common/exports.py:XLSXWriter.write_value_to_cell", "dessia_common/exports.py:XLSXWriter.compute_cell_link", "dessia_common/exports.py:XLSXWriter.write_class_header_to_row"]}
{"id": "C54", "title": "What an Excel exchange gives back", "statement": "Reading the workbook an object was exported to gives the object back, up to identities, when its attributes are the parameters of its class, plain values are those python reads back from their text, and links can be followed: from the object or the only object of its class, an object must be the first of its class and a list hold exactly the objects of the class, both of a class visited later; an object among several of its class has but plain values or objects of plain values. Otherwise the exchange may go wrong silently: a link is read as the first object of its sheet, whatever its row, so that a line between two points comes back with the same point at both ends, and a text that python reads as a value comes back as this value. An object that has a non empty dictionary cannot be read.", "quantifier": "for every object, any nesting and sharing, every signature of classes, writing of values as text and its reading", "why_tests_cant": "composition of a writer and a reader over unbounded structures", "anchors": ["dessia_common/exports.py:XLSXWriter", "dessia_common/excel_reader.py:ExcelReader.read_workbook", "dessia_common/excel_reader.py:ExcelReader.process_sub_objects", "dessia_common/excel_reader.py:ExcelReader.update_attribute_values", "dessia_common/excel_reader.py:ExcelReader.instantiate_main_object"]}
{"id": "C55", "title": "A catalog has one object per row", "statement": "A catalog that is read gives, under the title of each sheet, an object of the class named on the first row for each row from the third on, in order. Each parameter of the class gets the value of the cell under its name, texts being evaluated when python can, or its default value when no column has its name; an empty name is the empty string. A name repeated in the header makes the reading fail, unless the header has two empty cells before: then it is accepted and the last column with this name wins. A sheet whose header has different texts is read when each parameter that has no column has a default value other than the text empty; a parameter without default value, or whose default value is the text empty, makes the reading fail when it has no column, unless there are as many columns as parameters.", "quantifier": "for every workbook and every signature of classes", "why_tests_cant": "all workbooks", "anchors": ["dessia_common/excel_reader.py:ExcelReader.read_catalog", "dessia_common/excel_reader.py:ExcelReader.process_workbook_catalog", "dessia_common/excel_reader.py:check_duplicate_attributes", "dessia_common/excel_reader.py:ExcelReader.create_object"]}
{"id": "C56", "title": "A workflow saved as a dictionary comes back", "statement": "A workflow can be written as a dictionary exactly when every locked variable, at any level of nesting, has a default value and every default value can be serialised. When serialised default values are read as they were and no input or output of a WorkflowBlock or ForEach is unlocked while the one it stands for is locked, reading the dictionary succeeds and gives the same blocks with the same configuration, pipes, output, steps, description and name, nested workflows included; ports come back with their default values, labels and locks, under the names and positions their constructors give; variables outside blocks come back unlocked; a step without display setting forgets its display variable; detached variables are lost, and ports of deprecated displays are as constructed. So the workflow read is the one saved exactly when none of these had been changed; it computes the same values unless a value is given for a locked variable outside blocks; it can be saved and is then read identical. An input of a WorkflowBlock unlocked over a locked one comes back locked: without default value it can no longer be saved, and nested once more it cannot even be read.", "quantifier": "for every workflow, nested at any depth, every signature of user classes, serialisation of values and its inverse", "why_tests_cant": "a writer and a reader over unbounded nesting", "anchors": ["dessia_common/workflow/core.py:Workflow.to_dict", "dessia_common/workflow/core.py:Workflow.dict_to_object", "dessia_common/workflow/core.py:initialize_workflow", "dessia_common/workflow/core.py:deserialize_pipes", "dessia_common/workflow/core.py:Block.deserialize_variables", "dessia_common/workflow/core.py:Variable.update_from_config", "dessia_common/workflow/core.py:Step.dict_to_object", "dessia_common/workflow/blocks.py:WorkflowBlock.dict_to_object", "dessia_common/workflow/blocks.py:ForEach.dict_to_object"]}
{"id": "C57", "title": "The column of a node in the drawing of a graph", "statement": "get_column_by_node, when it answers, gives each node of an acyclic graph one column. With e the end of the longest path, a node leading to e is as many columns before e as the longest way to e has edges; any other node is just after the last of its predecessors. So every edge goes from a column to a later one and no column up to the last is empty. It answers exactly when each node that does not lead to e comes, in the order of the graph, after one of its ancestors and after all those not on the longest path; otherwise it raises KeyError. It always answers when the graph has one end, never when a node without predecessor does not lead to e. A cycle raises NetworkXUnfeasible. Whether it answers depends on the order in which the nodes are listed, and columns may be more than the nodes of the longest path.", "quantifier": "for every graph, order of its nodes, and functions of networkx giving a longest path and simple paths in any order", "why_tests_cant": "all graphs and all orders of nodes", "anchors": ["dessia_common/graph.py:get_column_by_node", "dessia_common/graph.py:get_longest_path", "dessia_common/graph.py:get_paths_from_to"]}
{"id": "C58", "title": "The layout of a workflow places each block and outside variable once", "statement": "When layout answers, each block and each variable outside blocks has its index once, in one column of one component; two nodes share a component exactly when pipes join them, in whatever direction; no column is empty; each pipe goes from a column to a later one of the same component. It answers, or raises KeyError, or raises NetworkXUnfeasible, the latter only when pipes form a cycle. It always answers on an acyclic workflow each component of which has one end. It is false of acyclic workflows in general: a workflow of four blocks and an outside variable, with two ends, raises KeyError whatever the order.", "quantifier": "for every workflow wired by pipes, and every answer of the networkx functions that follows their documentation", "why_tests_cant": "all workflows and all orders of nodes", "anchors": ["dessia_common/workflow/core.py:Workflow.layout", "dessia_common/workflow/core.py:Workflow.graph_columns", "dessia_common/workflow/core.py:Workflow.layout_graph", "dessia_common/workflow/core.py:Workflow.nodes"]}
{"id": "C59", "title": "The axes of a parallel plot", "statement": "The axes chosen for a parallel plot of two attributes or more are distinct attributes of the dataset, three at least when there are three. When two attributes vary, those that do not are all shown, and two attributes of greatest squared correlation are next to each other. All attributes are shown when there are at most four, or when two to four vary. Otherwise attributes may be lost without notice: of five attributes that vary, two are left out for some values; when at most one attribute varies, only the first three are shown, with the last one when their number is even. One attribute alone gets a histogram of its own, none raises ValueError.", "quantifier": "for every list of attributes, values, function of correlation and order of iteration of sets", "why_tests_cant": "all values and orders of sets", "anchors": ["dessia_common/datatools/dataset.py:Dataset._parallel_plot_attr", "dessia_common/datatools/dataset.py:Dataset._get_correlations", "dessia_common/datatools/dataset.py:Dataset._get_attribute_trios", "dessia_common/datatools/dataset.py:Dataset._trios_list_to_parallel_axes", "dessia_common/datatools/dataset.py:Dataset._new_sided_attribute", "dessia_common/datatools/dataset.py:Dataset.plot_parallel_plot"]}
{"id": "C60", "title": "The displays of an object come from the decorators of its methods", "statement": "The display settings of a class whose methods have at most one view each are, in order: a default markdown exactly when no method is a markdown view, one setting for each method decorated as plot, markdown or cad view, with its selector or else its name, and the structure tree. An object has one display per setting, in the same order; it shows what the method of the first setting with that selector returns, serialised and cleaned, or the exception it raises. The structure tree always shows AttributeError. Displays are not obtained at all when one source is not found or when one returned value cannot be serialised. Methods decorated as pictures, or through a renamed decorator, have no display; two views on one method give the upper one twice; two methods with one selector show the first one twice.", "quantifier": "for every list of decorated members, every behaviour of their methods, of serialisation and of text cleaning", "why_tests_cant": "all classes and combinations of decorators", "anchors": ["dessia_common/decorators.py:get_all_decorated_methods", "dessia_common/decorators.py:get_decorated_methods", "dessia_common/core.py:DessiaObject.display_settings", "dessia_common/core.py:DessiaObject._display_settings_from_decorator_name", "dessia_common/core.py:DessiaObject._displays", "dessia_common/displays.py:DisplayObject"]}
{"id": "C61", "title": "Exports of an object to files and archives", "statement": "The export formats of a class are json, xlsx and docx, those of its decorated methods, each once, and zip. save_export_to_file with a selector writes what the method of the first format with this selector writes, under the given path with the extension added only when missing, and raises ValueError for an unknown selector. to_zip writes one entry per format but zip, export.extension, with what its method writes, in order, or fails with the first method that fails; all can be read when extensions differ. Otherwise some cannot: two exports with one extension leave one readable, an export with the selector of a generic one is never used, one decorated as docx is given a text stream so writing bytes fails. A state whose workflow has an export block has no archive; a run stores the files of its export blocks but archives; saving a block export to a file leaves it empty; an Archive block stores its files in order and refuses what is not a file.", "quantifier": "for every class, behaviour of the methods that write, selector and path", "why_tests_cant": "all classes, formats and paths", "anchors": ["dessia_common/core.py:DessiaObject.save_export_to_file", "dessia_common/core.py:DessiaObject.to_zip", "dessia_common/core.py:DessiaObject._export_formats", "dessia_common/files.py:generate_archive", "dessia_common/workflow/core.py:WorkflowState.export", "dessia_common/workflow/core.py:WorkflowRun.zip_settings", "dessia_common/workflow/blocks.py:Archive.evaluate"]}
{"id": "C62", "title": "Displays of a workflow run and the paths they refer to", "statement": "The display settings of a WorkflowRun are its documentation, loaded by default when no display block is, then one setting per display block in order, whose reference path '#/values/<index>' names the pipe feeding the first input of the block. In a run, following that path gives the value, in the data flow, of what feeds the block, exactly when it is an input or the result of a block that the output needs; otherwise KeyError, until the block has been displayed: then the path gives the very value that was shown. The samples of a plot of several objects refer one by one to the objects they show. Displaying by a selector that one block has gives the first result of that block with its path, or its failure. Exceptions to what one expects: a display block that nothing feeds, or one without a view, leaves the run without any display; the displays of a state that is not a run always fail; a view named Documentation is never shown; when two blocks have one selector the first, if it does not lead to the last, always fails; a TypeError inside a display method makes it run twice; a plot of fewer than two attributes fails.", "quantifier": "for every well formed workflow, display blocks, inputs, block behaviours and run", "why_tests_cant": "all workflows, all placements of display blocks and all runs", "anchors": ["dessia_common/workflow/core.py:Workflow.blocks_display_settings", "dessia_common/workflow/core.py:WorkflowRun.display_settings", "dessia_common/workflow/core.py:WorkflowRun._get_from_path", "dessia_common/core.py:DessiaObject._display_from_selector", "dessia_common/workflow/blocks.py:Display.evaluate", "dessia_common/workflow/blocks.py:MultiPlot.evaluate"]}
{"id": "C63", "title": "Docstrings and pretty names", "statement": "The docstring of a class or method whose text is a description then ':param name: description' parts, some followed by ':type', gives the trimmed description of the object and, to each documented argument, its own trimmed description, the last one if it is documented several times; arguments that are not documented have an empty one. What follows ':return:' changes nothing. When one documented name is not an argument, or has an annotation that is not known, the whole documentation is replaced by 'Docstring parsing failed', so descriptions of other arguments are lost. A pretty name has the length of the name, spaces in place of underscores, a capital at the start of each word of at least two characters, and nothing else changed.", "quantifier": "for every description, list of documented arguments and annotations; for every name of ASCII characters", "why_tests_cant": "all texts and names", "anchors": ["dessia_common/schemas/core.py:parse_docstring", "dessia_common/schemas/core.py:parse_attribute", "dessia_common/schemas/core.py:MemberSchema", "dessia_common/utils/helpers.py:prettyname"]}
{"id": "C64", "title": "The form of an annotation", "statement": "to_dict of the schema of an annotation, when it gives something, gives the form of this annotation: its typing as serialize_annotation writes it (read back as the annotation when it is plain), the key, title, editability and description of the attribute, the type and form type of its kind, the forms of its arguments in order with their own keys and titles and without default, the classes, units, allowed values and selectors, and the default value shown for the one of Python. It gives a form exactly to the annotations that are described (those of known classes, Unions of DessiaObjects, dictionaries of texts to builtins, and so on) with a default value they take, unless there is a list of an Optional of a Literal or of a tuple of any length, which raises NotImplementedError. A form can be written in json when its default value can. Not as expected: measures refuse None and integers as default, Type and selectors refuse None; None first in a Union hides what follows; defaults of lists and dictionaries are lost, those of tuples are not serialized; a measure shown as default loses its class; lists of optional files are not lists of files.", "quantifier": "for every annotation, attribute, kinds of classes and behaviour of to_dict of objects", "why_tests_cant": "all annotations, nested to any depth, with all default values", "anchors": ["dessia_common/schemas/core.py:get_schema", "dessia_common/schemas/core.py:Property", "dessia_common/schemas/core.py:TypingProperty", "dessia_common/schemas/core.py:OptionalProperty", "dessia_common/schemas/core.py:MeasureProperty", "dessia_common/schemas/core.py:TupleProperty", "dessia_common/schemas/core.py:AttributeTypeProperty", "dessia_common/schemas/core.py:object_default"]}
{"id": "C65", "title": "The schema of a class or of a method", "statement": "The schema of a member is built exactly when each of its arguments but self, cls, progress_callback and return has an annotation that get_schema knows. Its dictionary has one step with one form for each of these arguments, in the order of the signature, with its own annotation, its pretty name as title, its default value by the rules of Python and its description in the docstring; it can be written when the annotations are described and take their default. The default dictionary has one value per argument in order, the default shown for the one of Python, then object_class for a class; the default value has the arguments with a default only. The dictionary of a class adds its name and whether it is standalone. Not as expected: an argument without default annotated as Any, Literal, file or Optional has an object json cannot write in the default dictionary, and one annotated as Optional has its default there unserialized.", "quantifier": "for every signature, annotations, docstring, kinds of classes", "why_tests_cant": "all signatures and annotations", "anchors": ["dessia_common/schemas/core.py:MemberSchema", "dessia_common/schemas/core.py:ClassSchema", "dessia_common/schemas/core.py:MethodSchema", "dessia_common/schemas/core.py:SchemaAttributeCollection", "dessia_common/schemas/core.py:Schema"]}
{"id": "C66", "title": "How a dataset is printed", "statement": "str(dataset) of an empty dataset is its heading: class, name (or address when it has none), numbers of samples and features. Otherwise it is this heading, then a table with one column per common attribute, after the name when it is not one of them: a line of capitalized names each centered in a column of at least 16 characters, a line of dashes as long, then one line per object for the first five, as long as the title, each with the value of each attribute (the entry of the matrix when the object has no such attribute) aligned on the right, cut with three dots when it is too long; the number of objects that are said not to be displayed is 10 less than the objects. Not as expected: when there are more than five objects, the first five are printed again in place of the last five, whatever the last ones are; when the name of the first column has more than ten characters, printing raises UnboundLocalError.", "quantifier": "for every dataset, list of attributes and values", "why_tests_cant": "all numbers of objects, lengths of names and values", "anchors": ["dessia_common/datatools/dataset.py:Dataset.__str__", "dessia_common/datatools/dataset.py:Dataset._print_objects_slice", "dessia_common/datatools/dataset.py:Dataset._print_titles", "dessia_common/datatools/dataset.py:Dataset._print_object", "dessia_common/datatools/dataset.py:Dataset._get_printed_value"]}
{"id": "C67", "title": "Files, streams, and what objects and workflows save in them", "statement": "A copy of a file has its content, name and class and is read from the start. Two files are equal exactly when both are binary or both are text, with the same content and the same name; this is an equivalence, equal files have equal hashes and a copy equals its original. Reading a binary file gives its bytes under its path; reading a text file decodes it and leaves no carriage return, so text without any comes back unchanged; a missing file raises. Saving the template of a class then reading it gives the template, other files are left alone. Saving an object to a file and reading it gives what dict_to_object makes of its dictionary, when json reads what it wrote. Not as expected: from_stream always gives a StringFile without a name, raises on text streams and keeps carriage returns that from_file drops; a name that ends with the letters of the extension without a dot gets no extension; a save that fails has already emptied the file; what save_to_stream writes to a stream cannot be read by from_json_stream from the same stream; save_script_to_stream leaves what the stream held after the script.", "quantifier": "for every content, name, class of file, file system, stream and position", "why_tests_cant": "all contents, lengths and positions", "anchors": ["dessia_common/files.py:BinaryFile", "dessia_common/files.py:StringFile", "dessia_common/core.py:DessiaObject.save_to_file", "dessia_common/core.py:DessiaObject.save_to_stream", "dessia_common/core.py:DessiaObject.from_json_stream", "dessia_common/core.py:DessiaObject.from_json", "dessia_common/workflow/core.py:Workflow.save_script_to_stream", "dessia_common/workflow/core.py:WorkflowRun.save_script_to_stream", "dessia_common/workflow/core.py:Workflow.save_script_to_file"]}
{"id": "C68", "title": "Word documents made from markdown text", "statement": "The Word document of a text made of titles, plain lines, rows of tables, rules and blank lines has its titles first, each at the level of its number signs and with the space before it, then a page break, then every title, line and row in the order of the text, each row as a table of its own; rules and blank lines are left out. Not as expected: titles of more than nine number signs raise ValueError and no document is made; where they stand in the text all titles are at level 0; number signs inside a title raise its level, in both places; any line but a title that holds three dashes in a row is lost, be it text or a row; a row whose only cell is one or two dashes is shown as text; empty cells at either end of a row are lost.", "quantifier": "for every list of titles, lines, rows, rules and blank lines, with any characters; for every line with dashes between any blocks", "why_tests_cant": "all texts and mixes of lines", "anchors": ["dessia_common/document_generator.py:DocxWriter.parse_markdown", "dessia_common/document_generator.py:DocxWriter.from_markdown", "dessia_common/document_generator.py:DocxWriter.add_headings", "dessia_common/document_generator.py:Heading.from_markdown"]}
{"id": "C69", "title": "Markdown and Word descriptions of objects, states and runs of workflows", "statement": "A value is printed by its rounding, its text, the number and the class of its elements, a dash for None, or its name. The Word document of an object holds its title, the title of its attributes, a page break, the text of the template, then one table per attribute in order, with its name, its class and its text, cut after 25 characters. A title written by header is read back as a title of its level. The table of the memory used has a row per block, where it was first evaluated, with the last measures; measures come back from their dictionary. Anchors are lower case without spaces and as long as their titles. Not as expected: an empty dictionary is printed as an empty list; the text of a mixed sequence depends on the order of a set; an object with a complex attribute has no description, TypeError; the description of a state that is not a run always raises TypeError; the one of a run whose output is a number, a text or None raises AttributeError, and KeyError when a block was started and did not end; titles that differ by case or by dashes share their anchor.", "quantifier": "for every value, object, list of attributes, run, list of measures and title", "why_tests_cant": "all values, names, classes and orders of sets", "anchors": ["dessia_common/exports.py:MarkdownWriter", "dessia_common/core.py:DessiaObject.to_markdown", "dessia_common/core.py:DessiaObject.to_markdown_docx", "dessia_common/workflow/core.py:ExecutionInfo", "dessia_common/workflow/core.py:WorkflowState.to_markdown", "dessia_common/workflow/core.py:WorkflowRun.to_markdown"]}
{"id": "C70", "title": "Models generated from decision trees", "statement": "DecisionTreeGenerator.generate yields the models of exactly the vectors that are valid, have a valid model without possibilities and lie below valid nodes only, in lexicographic order, each once, and ends when some depth is not exceeded; it asks for the models of valid vectors below valid nodes and of the root only. RegularDecisionTreeGenerator.generate yields the models of the vectors with one choice per depth all of whose beginnings are valid, in order, each once, and always ends. Not as expected: a generator gives its models once, a second call of generate gives nothing; when it was left at a model it gives this model again first; the model of the root is built before its vector is checked.", "quantifier": "for every four functions of a generator (model, validity of vectors and models, number of possibilities) and all numbers of possibilities", "why_tests_cant": "all trees of any depth and width, and all functions", "anchors": ["dessia_common/generation.py:DecisionTreeGenerator.generate", "dessia_common/generation.py:RegularDecisionTreeGenerator.generate"]}
{"id": "C71", "title": "Memory footprints of objects", "statement": "deep_getsizeof gives the sum of the sizes of the objects reached through the keys and values of mappings and the attributes of other containers, the object itself included, each counted once even if it is found several times or in a cycle; it raises AttributeError exactly when an object that is a container without attributes (list, tuple, set) is reached. breakdown_analysis gives for each class of the breakdown, in order, the number of its objects, the size of the dictionary of its objects and their paths, and their quotient. Not as expected: the size of a list is never found, and the attributes of an object that is not a container do not count.", "quantifier": "for every heap of objects, object and breakdown", "why_tests_cant": "all shapes of heaps, with shared objects and cycles", "anchors": ["dessia_common/breakdown.py:deep_getsizeof", "dessia_common/breakdown.py:breakdown_analysis"]}
{"id": "C72", "title": "Arguments of methods given by forms", "statement": "dict_to_arguments of an object gives, in the order of the method, the arguments whose number, self being left out, is a key of the dictionary, read with their annotations; it fails exactly when a given argument has no annotation (KeyError) or is not read (the error of the reading); answers do not depend on the cache. The forms of an object are those of its allowed methods that do not start with an underscore, in order, and method_dict raises KeyError for others. Not as expected: inputs of forms are named by the arguments, and what is given by these names is ignored, so that the default dictionary of a method gives it no argument; the first argument of a static method can not be given; the arguments after a reserved name are shifted from the inputs of the form.", "quantifier": "for every class, methods, annotations, dictionary, cache and reading of values", "why_tests_cant": "all signatures, dictionaries and orders of calls", "anchors": ["dessia_common/core.py:DessiaObject.dict_to_arguments", "dessia_common/core.py:DessiaObject.raw_method_schemas", "dessia_common/core.py:DessiaObject.method_dict", "dessia_common/schemas/core.py:MemberSchema.__init__", "dessia_common/schemas/core.py:MethodSchema.__init__"]}
{"id": "C73", "title": "Cut trees and extracted regions of graphs", "statement": "cut_tree_final_branches leaves the nodes from which a node that has not exactly one predecessor, or a cycle, is reached, with the edges between them, and cuts nothing the second time. extract_region gives the given nodes, all that comes before them, what follows them directly, and nothing else than what follows them at the distance or comes before, with the edges in between; it raises ValueError exactly when a given node is not in the graph. Not as expected: of a tree only its root is left; a node that follows at the distance may be missed, as the search in depth may come to a node by a longer way first; what comes before is taken at any distance.", "quantifier": "for every directed graph, list of nodes and distance", "why_tests_cant": "all graphs, with cycles, of any size", "anchors": ["dessia_common/graph.py:cut_tree_final_branches", "dessia_common/graph.py:extract_region"]}
{"id": "C74", "title": "What workflows say of themselves", "statement": "package_mix gives each package once, in the order of the blocks that use it first, with positive fractions that sum to 1; it is empty exactly when no block uses a class at any depth; the fraction of a package is the mean of its parts in the blocks that count, a workflow inside counting as one block. pipes_between_blocks gives the pipes that go out of the one block and into the other. Not as expected: loops and class methods do not count in the mix; is_valid never says no, and raises AttributeError as soon as there is a pipe between classes; export_format_from_selector never gives a format.", "quantifier": "for every workflow, with workflows inside at any depth", "why_tests_cant": "all nestings of workflows", "anchors": ["dessia_common/workflow/core.py:Workflow.package_mix", "dessia_common/workflow/core.py:Workflow.is_valid", "dessia_common/workflow/core.py:Workflow.pipes_between_blocks", "dessia_common/workflow/core.py:WorkflowState.export_format_from_selector"]}
{"id": "C75", "title": "Displays offered at the steps of a workflow", "statement": "displayable_display_settings gives, for each step, in the order of the workflow and under the index of their variable, the display settings of exactly the outputs that need no input of a later step; what is offered at a step is offered at later steps, the last step offers everything, and all labels are given as soon as there is a step. It raises ValueError exactly when an upstream input or an input of a step is not an input of the workflow. Not as expected: inputs that are in no step are not looked at, so that displays that need them are offered from the first step.", "quantifier": "for every workflow and list of steps", "why_tests_cant": "all distributions of inputs over steps", "anchors": ["dessia_common/workflow/core.py:Workflow.displayable_display_settings", "dessia_common/workflow/core.py:Workflow.displayable_outputs"]}
{"id": "C76", "title": "Giving a workflow state the values of the inputs of a block", "statement": "add_block_input_values asks for exactly the workflow inputs that feed the block directly or through a free variable. When it succeeds each of them has the given value, or the one it had when it was activated, the block reads these values, it can be evaluated if nothing else feeds it, and the other inputs, the blocks and the output are as before; values for other inputs are ignored; of keys that are the same number the last counts. It fails with ValueError for a key that is no number or an input without value, IndexError without such a block, TypeError for a value of another type. Not as expected: a failing call keeps the values given before the failure.", "quantifier": "for every well formed workflow, state, block and dictionary of values", "why_tests_cant": "all workflows and orders of inputs", "anchors": ["dessia_common/workflow/core.py:WorkflowState.add_several_input_values", "dessia_common/workflow/core.py:WorkflowState.add_block_input_values", "dessia_common/workflow/core.py:Workflow.block_inputs_global_indices"]}
{"id": "C77", "title": "Graphs drawn in a browser", "statement": "networkx_to_visjs_data gives every node the number of its place, the label made of its name and label, or of itself when it has none (then also as title, the label replaced by '[ ]' when longer than ten characters), its shape ('circular' by default) and colour; edges come in order, lead from and to the numbers of their nodes, and have arrows exactly in directed graphs, of the given head type. Not as expected: one node with a label and no name makes the whole call raise KeyError; nothing else fails.", "quantifier": "for every graph, directed or not, with any nodes, edges and attributes", "why_tests_cant": "all graphs", "anchors": ["dessia_common/displays.py:networkx_to_visjs_data"]}
{"id": "C78", "title": "The form of the run of a workflow", "statement": "Workflow.method_schemas asks for every input of the workflow exactly once, under the key that is its place among the inputs: the inputs of each step in order, those in the group of the step in one group at the end, then the spare inputs. Titles are the labels of variables, or the names of their block and of the variable, or the name alone for free variables; a locked input cannot be edited; a group is named by the display of its step or by its label. There is a form exactly when every input has one. Not as expected: one locked input without default value, or an input twice in the group of a step, leaves the workflow without any form.", "quantifier": "for every workflow whose inputs are each in one step or spare, with any blocks, variables, steps and groups", "why_tests_cant": "all arrangements of inputs", "anchors": ["dessia_common/workflow/core.py:Workflow.method_schemas", "dessia_common/workflow/core.py:Workflow.input_schema", "dessia_common/workflow/core.py:Workflow.input_annotations"]}
{"id": "C79", "title": "Analysis of the pointers of an object", "statement": "pointers_analysis counts, for every class, the edges of the pointer graph that do not start at the root and lead to an object of this class, and for every two different classes the edges from the one to the other; objects that raise AttributeError have no class. A class is reported exactly when it has a use, and the order of the edges does not matter. Not as expected: the analysis raises KeyError exactly when an element that cannot be reached leads to one that can.", "quantifier": "for every pointer graph and classes of elements", "why_tests_cant": "all graphs and orders of edges", "anchors": ["dessia_common/serialization.py:pointers_analysis"]}
{"id": "C80", "title": "Blocks that read and write attributes of shared objects", "statement": "A ModelAttribute or GetModelAttribute block gives what the parts of its name lead to from the object it is given. A SetModelAttribute block gives back that same object, with the named attribute and nothing else changed, also when the object had no such attribute; it raises AttributeError for anything that is not an instance. An attribute whose name is not deep is read back as it was written. A run changes only attributes that its blocks set, a run that only reads changes nothing, and running again on the same objects gives the same values when no name read goes through a name set. Not as documented: an attribute set under a deep name (with a slash) is read by no block at all, since the whole name is one attribute; and a run that reads then sets changes the objects of the user, so that running again gives other values.", "quantifier": "for every heap of shared objects, value, name and sequence of blocks", "why_tests_cant": "aliasing between objects, all names, runs of any length", "anchors": ["dessia_common/workflow/blocks.py:ModelAttribute.evaluate", "dessia_common/workflow/blocks.py:GetModelAttribute.evaluate", "dessia_common/workflow/blocks.py:SetModelAttribute.evaluate", "dessia_common/utils/helpers.py:get_in_object_from_path"]}
{"id": "C81", "title": "Variables that can be wired together", "statement": "match_variables gives to every typed variable of a workflow, in the order of the variables, exactly the other typed variables that are not on the same block, are not on the same side of blocks, and whose type is matched by its own; free variables are on no block and no side. With serialize_output it gives the same with addresses. Nothing is raised but what typematch raises, and that a match goes one way and not the other is a matter of types only. Not as expected: a free variable fed by another free variable has the address of that one, so with serialize_output entries are lost.", "quantifier": "for every workflow, types of variables and type matching", "why_tests_cant": "workflows of any shape", "anchors": ["dessia_common/workflow/core.py:Workflow.match_variables", "dessia_common/workflow/core.py:Workflow.variable_compatibility", "dessia_common/workflow/core.py:Workflow.variable_indices"]}
{"id": "C82", "title": "Types written beside values", "statement": "recursive_type gives the type of a value for every value made of builtins, objects of dessia classes, objects with an output_type, None, and lists or tuples of these, and raises for every value that holds, at any depth, an instance of a class that inherits from a builtin (KeyError) or something else (NotImplementedError). deserialize_with_type gives back, with the type made so, every value made of objects, None and lists of these. Not as expected: a value that is or holds an int, a float, a bool, a str or a dict never comes back, because the name of its type is passed to literal_eval; types and values of different lengths are cut to the shorter without an error.", "quantifier": "for every value, type, text of class and method dict_to_object", "why_tests_cant": "nested values of any shape", "anchors": ["dessia_common/utils/types.py:recursive_type", "dessia_common/serialization.py:deserialize_with_type"]}
{"id": "C83", "title": "Elements not attached to the output", "statement": "output_disconnected_elements lists, blocks first and then free variables and each in their order, exactly the elements from which no way through ports, blocks and pipes comes to the output. On ordinary workflows these are the blocks the output does not depend on, which are the ones is_block_secondary says are secondary, and the free variables that feed no block the output depends on. Without an output networkx raises an error.", "quantifier": "for every workflow, with cycles or not", "why_tests_cant": "workflows of any shape", "anchors": ["dessia_common/workflow/core.py:Workflow.output_disconnected_elements", "dessia_common/workflow/core.py:Workflow._graph", "dessia_common/workflow/core.py:Workflow.is_block_secondary"]}
{"id": "C84", "title": "Typings read by deserialize_typing", "statement": "deserialize_typing gives back, from the text serialize_annotation makes of it, every typing that is a builtin, a class, Type, one class in List, Tuple or InstanceOf, two classes in Dict, and any nesting of those with brackets in List, Tuple and Iterator. Not as expected: builtins in brackets raise ValueError (their older form is read), a tuple of the same class several times is read as a tuple of any length, while a tuple of any length and tuples of different classes raise TypeError, dictionaries with brackets in their arguments and the other typings always raise, List, Tuple and InstanceOf without argument are read with Any, and Dict without argument raises IndexError.", "quantifier": "for every typing of any depth and every text", "why_tests_cant": "typings of any depth", "anchors": ["dessia_common/utils/types.py:deserialize_typing", "dessia_common/utils/types.py:deserialize_tuple_typing", "dessia_common/utils/types.py:type_from_argname"]}
{"id": "C85", "title": "Borders of Pareto domains", "statement": "Dataset.pareto_frontiers gives one border for each ordered pair of different costs, in order. Each goes from the least to the greatest value of the first cost, through two Pareto-optimal points, one of them the best for the second cost. With two costs, every point of the dataset is on or above both borders; with any number, the Pareto-optimal points are, for the pairs of costs of which no point is the best twice. Costs may be given in columns. Not as expected: when a point is the best for all costs, the answer is a ValueError (the only error with two costs); with three costs points may be below a border; and columns are read as rows when there are as many costs as points.", "quantifier": "for every number of points and costs, every rational cost and every standard deviation", "why_tests_cant": "a border below every point of every dataset", "anchors": ["dessia_common/datatools/dataset.py:Dataset.pareto_frontiers", "dessia_common/datatools/dataset.py:Dataset._pareto_frontier_2d", "dessia_common/datatools/dataset.py:Dataset._check_costs"]}
{"id": "C86", "title": "Pretty annotations", "statement": "pretty_annotation gives the text of serialize_annotation with the names of classes without their modules, at any depth. It is the same text when no class is in the annotation, and it fails, with the same error, or is None exactly when serialize_annotation does. No module is named for builtins, classes and typings made of them. Not as expected: Any is written typing.Any, type variables and the type of None typing.Type, and classes of the same name in different modules cannot be told apart.", "quantifier": "for every annotation of any depth", "why_tests_cant": "annotations of any depth", "anchors": ["dessia_common/schemas/core.py:pretty_annotation", "dessia_common/schemas/core.py:compute_pretty_schema_annotation", "dessia_common/schemas/core.py:TypingProperty.pretty_annotation"]}
{"id": "C87", "title": "Values that can be serialised", "statement": "is_serializable answers True exactly when serialize succeeds and its result can be written in JSON, for values of any depth whose keys are strings or integers and with no class outside objects; what JSON can write is serializable, and there is always an answer when no object is inside. Not as expected: an object that cannot be serialised raises instead of answering False, also in a sequence; classes are said not to be serializable while serialize writes them; and dictionaries with keys such as tuples are said to be, while the result of serialize cannot be written in JSON.", "quantifier": "for every value of any depth, and every set of values and keys JSON takes", "why_tests_cant": "values of any depth", "anchors": ["dessia_common/serialization.py:is_serializable", "dessia_common/utils/types.py:is_jsonable"]}
{"id": "C88", "title": "Word documents written piece by piece", "statement": "DocxWriter writes what it was given, in order: the cells of a table are the texts of its rows, empty after the end of rows shorter than the first; add_paragraphs(True) writes each paragraph after its heading and takes the headings away, keeping those without paragraph; add_headings writes all headings and keeps them; add_table writes all tables, each with an empty paragraph after it, or the one of the given number; list items and page breaks come at the end. Not as expected: a row longer than the first one goes on in the next line of the table, where the next row may hide it, and raises when it goes beyond the table; headings without paragraph are never written by add_paragraphs; a level over 9 raises.", "quantifier": "for every number and length of rows, paragraphs, headings and tables", "why_tests_cant": "tables of any size with rows of any lengths", "anchors": ["dessia_common/document_generator.py:Table.add_to_document", "dessia_common/document_generator.py:DocxWriter.add_paragraphs", "dessia_common/document_generator.py:DocxWriter.add_headings", "dessia_common/document_generator.py:DocxWriter.add_table", "dessia_common/document_generator.py:DocxWriter.add_list_items"]}
{"id": "C89", "title": "The check of docstrings", "statement": "_check_docstring answers True for a docstring whose documented arguments are all arguments with known annotations, False without docstring, and False when the first wrong argument has an annotation that serialization refuses with a TypeError. Not as expected: it raises KeyError instead of answering False when a documented name is not an argument, ValueError when the name of the first documented argument is not followed by a colon, and other errors of the serialization of annotations; an empty docstring is proper.", "quantifier": "for every description and number of documented arguments", "why_tests_cant": "docstrings of any length", "anchors": ["dessia_common/schemas/core.py:_check_docstring"]}
{"id": "C90", "title": "The means of clusters", "statement": "ClusteredDataset.mean_clusters gives, for each label, the averages of the attributes that all objects of this label have; Dataset.mean gives those of its common attributes in their order; and for an attribute of all objects, the means of clusters weighted by the numbers of their objects give the mean of the dataset. Not as expected: when objects are of several classes, the means of clusters may have different lengths, and more attributes than the mean of the dataset, so that they cannot be compared. An empty clustered dataset raises.", "quantifier": "for every number of objects, attributes and labels, in rationals", "why_tests_cant": "datasets and clusters of any size", "anchors": ["dessia_common/datatools/cluster.py:ClusteredDataset.mean_clusters", "dessia_common/datatools/cluster.py:ClusteredDataset._check_transform_sublists", "dessia_common/datatools/dataset.py:Dataset.mean"]}
{"id": "C91", "title": "The widths of columns of Excel sheets", "statement": "autosize_sheet_columns gives each column of a sheet the length of its longest text and a half, at least the smallest width and at most the largest, so that a text is cut only in columns of the largest width. Not as expected: a sheet with one line raises IndexError, and empty cells count as texts of four characters, those of 'None'.", "quantifier": "for every number of columns and lines, texts and bounds", "why_tests_cant": "sheets of any size", "anchors": ["dessia_common/exports.py:XLSXWriter.autosize_sheet_columns"]}
{"id": "C92", "title": "The documentation of inputs of blocks", "statement": "parse_input_doc gives for an input of InstantiateModel, ClassMethod or ModelMethod blocks what their docstring says on its name, the empty documentation when it says nothing, and the failed one when the docstring cannot be parsed; for an input of a ForEach over a workflow of such blocks, all of whose inputs belong to blocks, the documentation of the corresponding input of the workflow. Not as expected: an input of a WorkflowBlock never has the documentation of the corresponding input, as the dictionary has the inputs of the workflow for keys; all inputs of a ForEach are marked as failed when one input of its workflow is a variable without block, or an input of a WorkflowBlock.", "quantifier": "for every block, nested to any depth, docstring and number of inputs", "why_tests_cant": "docstrings of nested workflows are of any depth and any of their inputs may be missing", "anchors": ["dessia_common/workflow/core.py:Block._docstring", "dessia_common/workflow/core.py:Block.parse_input_doc", "dessia_common/workflow/core.py:Workflow._docstring", "dessia_common/workflow/blocks.py:InstantiateModel._docstring", "dessia_common/workflow/blocks.py:WorkflowBlock._docstring", "dessia_common/workflow/blocks.py:ForEach._docstring"]}
{"id": "C93", "title": "Copies with a cache of arguments", "statement": "Whatever was copied before, the shallow copy of an object is an object of the same class with the same attributes, as long as classes with the same full name have the same arguments. Not as expected: the arguments of constructors are kept by full name of class, so that once an object of a class of this name was copied, the copy of an object of a class defined again under it silently sets new arguments to their default value, raises TypeError when a new argument has no default value, and when an argument was removed raises KeyError, or TypeError if the object has an attribute of this name.", "quantifier": "for every sequence of copies before, class, arguments and values", "why_tests_cant": "the cache depends on all copies made since the start of the program", "anchors": ["dessia_common/core.py:DessiaObject.__copy__", "dessia_common/core.py:_fullargsspec_cache"]}

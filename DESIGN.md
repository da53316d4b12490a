# Formal model of dessia_common: design

## Approach

The python source is read as text and rewritten by hand as small total Gallina functions, branch by branch.
Each definition cites the file and lines it mirrors, and says what it simplifies.
Python exceptions are values (`res A := Ok a | Err e`).
Loops become structural recursion, or recursion on explicit fuel with a distinguished out-of-fuel result that the theorems rule out.
What is outside dessia_common (block functions, numpy set-up, class registry, iteration order of python sets, uuid generation) is a parameter of the definitions, closed by Section generalisation. It is never an axiom.

Each area has up to four files in `rocq/theories`:

* `<Area>Model.v`: the code, no proofs;
* `<Area>Spec.v`: the vocabulary of the statements, independent from the model's helpers (absent when the standard library vocabulary is enough);
* `<Area>Proofs.v`: lemmas;
* `<Area>Props.v`: the property theorems only, each closed by `exact`, each followed by an example meeting its hypotheses and by `Print Assumptions`.

When the code violates the natural statement, the theorem is named `..._refuted` and exhibits a witness; the positive theorem then states the exact condition under which the property holds.

## Properties and how they are proved

| Id | Model | Proof idea |
|----|-------|------------|
| C01 | filters over abstract objects, comparison operators over rationals | induction over objects; equality with `List.filter` |
| C02-C05 | nested python values (`PyValue.v`), `data_eq`, `choose_hash`, `diff` | nested induction over values |
| C06 | path get/set on nested values, path strings, `$ref` dictionaries | functional walk equal to the loop, induction over the path; strings by split/join lemmas |
| C07 | plain `serialize` / `dict_to_object` with a class table | nested induction |
| C08, C09 | `serialize_with_pointers` as a state transformer over the memo | invariant on the memo, unfolding of references |
| C10 | pointer graph and topological order | graph reasoning; the library order is any topological order |
| C11 | `deepcopy_value` with memo | invariant on the memo |
| C12, C13 | annotations as an inductive type with unions compared as sets, class hierarchy and dict_to_object as parameters; typematch on fuel with its unfolding equation | induction on sizes, set-theoretic reading of types; induction over types for arguments |
| C14 | values with arbitrary keys | induction, equivalence with an inductive predicate |
| C15 | printer and parser on character lists | induction over annotations, bracket-depth lemma |
| C16 | index arithmetic over argument lists | arithmetic |
| C17, C18 | check lists, type checks, platform checks; a store of check lists for the accumulation in schemas | induction on the checks; the list the caller holds is never written |
| C19, C20 | step editing state machine | invariant by induction over edit sequences |
| C21, C22 | variable lock state machine; input value dictionaries | invariant; extensional characterisation |
| C23-C26 | workflow execution state machine | refinement to an inductive denotation of the diagram |
| C27 | variable addresses | injectivity and round trip |
| C28, C44 | `evaluate` of the blocks over a small value type, user code and sub-workflow runs as parameters | induction over lists; ranks of combinations by mixed-radix arithmetic |
| C29-C31 | datasets with matrix cache | induction, permutation and sortedness |
| C32, C33 | pareto algorithm over rationals | loop invariant |
| C34 | metrics over rationals | field arithmetic, Cauchy-Schwarz by induction |
| C35 | factor grids over Z | number theory |
| C36, C37 | interpolation, normalisation over rationals | field arithmetic |
| C38 | full factorial | induction over attributes |
| C39 | markdown table rows | list lemmas |
| C40 | breakdown merge | invariant of the merge loop |
| C41 | wiring copied through addresses | copy equals a relabelling of the diagram; equivariance of the meaning |
| C42 | argument reading loop | loop invariant, composition with C22 |
| C43 | composition of the models of C09 and C10 | the written document meets the hypotheses of C10; dependency is well founded because denotation is |
| C45 | `==` and `hash` of nested workflows, `equivalent` of each block class, hashes as parameters | induction over nested workflows; positions of variables give a relabelling of the diagram |
| C46 | branches, displays and exports of blocks on states and runs, sessions mixing actions and displays | invariant of C26 kept by branch evaluation; progress by rank; simulation between the state and the run that forgets pipes |
| C47 | `upstream_inputs` and the display of a form step | reachability; progress of C46 on a new state; data flow restricted to the blocks depended on |
| C48 | copy, to_dict, dict_to_object, hash and == of WorkflowState and WorkflowRun | invariant on all reachable states (settled inputs, flags only on known items); simulation of states equal on the pipes still to be read; counting of kept values for equality |
| C49 | to_script of Workflow and of every block class, imports, pipes, locks and free variables; execution of the script | scripts as lists of statements with an interpreter; mutual induction on nested workflows with a frame invariant on names, heap and fresh identities; loop invariants for blocks, locks, variables and pipes; pairing of old and new variables by position |
| C50 | to_script of WorkflowRun: values of inputs, their imports, execution of the script up to Workflow.run | text search in rendered lines reduced to names of ports by uniqueness of decimal writing; closed forms of the two loops; rank in a filtered list; composition with C49 and C22 |
| C51 | ClusteredDataset: splitting, merging, selection, sorting, centroids, families of points | sets as lists in any order; loop that fills sublists by label in closed form; grouping is a permutation; loop on labels as indices |
| C52 | ClusteredDataset.from_pareto_sheets on exact costs | iteration by fuel, out of fuel for any fuel when a dataset is empty; labels of sheets as tags, composition with C33 |
| C53 | XLSXWriter: sheets, rows, cells, links | composition with the order of breakdowns (C40); dictionary of rows by equality as positions among members; rows written in any order as a grid |
| C54 | ExcelReader.read_workbook on what XLSXWriter wrote | induction on the stack of sheets, last class first: each sheet gives the members of its class up to identities; cells of C53 read back one by one |
| C55 | ExcelReader.read_catalog on any workbook | loop over rows as a map; last column of a name by induction from the right |
| C56 | Workflow.to_dict then dict_to_object, every block included | mutual induction on workflows and blocks: the variables read are numbered by the rank of those written, so the wiring is relabelled (C27); ports are updated one by one over those of the constructors; a second induction compares with the original |
| C57 | graph.get_column_by_node and the paths it is given by networkx | the greatest length of the simple paths is the longest way, so columns decrease by at least one along edges; the loop over nodes is followed with the dictionary as invariant, its failure characterised by the ancestors seen so far |
| C58 | Workflow.layout, graph_columns, layout_graph, nodes | pipes give the edges of the graph (C27); components partition the nodes; C57 in each component; two_ends is computed by hand for any answer of networkx |
| C59 | Dataset._parallel_plot_attr, _get_correlations, _get_attribute_trios, _trios_list_to_parallel_axes, _new_sided_attribute | pairs of varying attributes are sorted; series of two pairs sharing one attribute; invariant of the axes: distinct, in the dataset; case analysis up to four attributes; parity of the stars when scores are made up |
| C60 | get_all_decorated_methods, get_decorated_methods, display_settings, _displays, attrmethod_getter | attributes of a function after its decorators; a single effect decides them; settings by decorator name, membership of each method in one list; displays by selector |
| C61 | _export_formats*, save_export_to_file, to_zip, zip_settings, generate_archive, WorkflowState.export, Export and Archive blocks | formats by decorator name as for displays; first format with a selector; archive as a fold that appends entries; concrete classes for the violations |
| C62 | blocks_display_settings, block_selector, WorkflowRun.display_settings and _get_from_path, _display_from_selector on runs, Display and MultiPlot evaluate | the run of C46 (simulation of the state by the run it leaves) extended: pipes into the first input of displays are memorized, a displayed block was ready, hence its pipe holds the data flow value; paths split as in C06 |
| C63 | parse_docstring, parse_attribute, MemberSchema (documentation), prettyname | split as first occurrences of a separator; the text of a well written docstring is split at its own markers; pretty names character by character |
| C64 | get_schema, to_dict and default_value of all Property classes, is_file_related, object_default | inductive forms; induction on annotations; base dictionary by its seven keys; completeness by the same induction with default values taken apart; json by keeping track of the default value |
| C65 | MemberSchema, ClassSchema, Schema.to_dict, default_dict, default_value | attributes by name from the signature (C16), each looked up in distinct names; forms by C64, descriptions by C63 |
| C66 | Dataset.__str__ and its helpers | the title and each line as a list of cells between bars; a cell is determined by its width and its value; columns keep their width from the title to the lines |
| C67 | files.py, saving to and reading from files and streams | a stream is its content and a position; writing in an empty stream, or at its end, is appending; a path is followed by its extension exactly when it does not end with it |
| C68 | document_generator.py, parse_markdown and from_markdown | regular expressions by derivatives, proved to accept what they describe; each kind of line is parsed as its kind, the text being split at its line feeds |
| C69 | exports.py MarkdownWriter, to_markdown of objects, states and runs, ExecutionInfo | texts are concatenations of lines; the text of the template is the markdown of a list of ordinary blocks, so C68 gives its document; a dictionary of pairs keeps first places and last values |
| C70 | generation.py, generators from decision trees; trees of dectree as a current node and the numbers of possibilities by depth | an abstract walk whose trace from a node to its next brother is its preorder; leaves of a preorder are sorted and complete; trees follow the walk while the possibilities by depth are those of the nodes above |
| C71 | breakdown.py deep_getsizeof, breakdown_analysis; objects as addresses in a heap with a size and a kind | the ids visited are closed under what is held, except those visited before; fuel is the number of objects |
| C72 | core.py dict_to_arguments, raw_method_schemas and method_dict, and the names of the inputs of the schema of a method | induction on the arguments with the number of the first one; decimal numbers are injective and start with a digit, identifiers do not |
| C73 | graph.py cut_tree_final_branches, extract_region; graphs as lists of nodes and edges, the search in depth of networkx with a depth limit | removed nodes are closed under successors, so degrees of the others do not change; walks to the nodes of a search are as long as the depth used |
| C74 | workflow/core.py package_mix, is_valid, pipes_between_blocks, export_format_from_selector; blocks as trees, mixes as ordered dictionaries of rationals | induction on the nesting: the sum before division is the number of blocks that count |
| C75 | workflow/core.py displayable_display_settings; outputs with their upstream inputs, steps as lists of inputs, dictionaries in order | induction on steps from the last one, with the inputs of steps already seen |
| C76 | workflow/core.py add_several_input_values, add_block_input_values, block_inputs_global_indices, on the states of C22-C26 | one value: what changes in the state; induction on the list of inputs, values of inputs do not touch other inputs |
| C77 | displays.py networkx_to_visjs_data | induction on nodes and edges, places of nodes by index |
| C78 | workflow/core.py method_schemas, input_schema, input_annotations; schemas/core.py collections and groups of attributes | keys of inputs are distinct, so dictionaries of annotations and schemas give each its own; both directions of success by inversion |
| C79 | serialization.py pointers_analysis | invariant of the loop: numbers count the edges seen, the memory of classes agrees with classes |
| C80 | workflow/blocks.py attribute blocks | heaps that agree on the names which are not set: reading and writing preserve the agreement |
| C81 | workflow/core.py match_variables, variable_compatibility | the inner loop is a filter by a boolean equivalent to being apart and matched; addresses are injective on ordinary workflows |
| C82 | utils/types.py recursive_type, serialization.py deserialize_with_type | nested induction on values; types by an inductive relation, the loop over pairs by its length |
| C83 | workflow/core.py output_disconnected_elements, _graph | a search by rounds reaches a closed set, as every round leaves fewer edges with an unknown source; on ordinary workflows a step backwards keeps the meaning of a node |
| C84 | utils/types.py deserialize_typing, deserialize_tuple_typing, type_from_argname | the shape of a text with brackets gives its three parts; splitting undoes joining as names have no comma; induction on readable typings |
| C85 | datatools/dataset.py pareto_frontiers, _pareto_frontier_2d, _check_costs | the line of least slope in absolute value through the best point for a cost goes below the others; the best point for a cost of the front is the best of all, by C32 |
| C86 | schemas/core.py pretty_annotation of the properties | induction on annotations; both texts go through the same branches |
| C87 | serialization.py is_serializable, utils/types.py is_jsonable | induction on values, serialize keeps what can be written in JSON |
| C88 | document_generator.py DocxWriter, Table.add_to_document | induction on rows, the last row that reaches a cell; induction on paragraphs |
| C89 | schemas/core.py _check_docstring | over the reading of docstrings of C63, induction on the documented arguments up to the first wrong one |
| C90 | cluster.py mean_clusters, dataset.py mean | the split of C51 and the matrix of C30; sums over a permutation of the objects |
| C91 | exports.py autosize_sheet_columns | fold over cells is the largest length; arithmetic of rationals |
| C92 | workflow/core.py Block._docstring, parse_input_doc; blocks.py _docstring of each block | dictionaries updated by folds; keys of docstrings are inputs of the block or of its workflow |
| C93 | core.py __copy__, _fullargsspec_cache | the cache keeps the first arguments of each name over any history; reading then building gives the object back |

## Trusted base

* Coq 8.16.1 kernel.
* The axioms listed by `Print Assumptions` under each theorem (target: none).
* The correspondence between the Gallina definitions and the python text, established by reading.
* Floats are read as rationals with the special values NaN and infinities where they matter; rounding is not modelled, except in the binary64 instance of the Pareto algorithm (C32).

## Not modelled

Web front-end schemas content, plotting, docx writer, template generation, 3D exports, random numbers,
third-party libraries (networkx, numpy, sklearn, dectree, pyDOE) except through stated contracts.


Workflow states (C48): the copied or read workflow is identified with the original by the addresses of its parts (C41), values are
not deep-copied, dictionaries are visited in the order of the workflow, parts shared between values by pointers are left to C43,
and of the execution info only the order of evaluated blocks is kept.

Scripts (C49): a script is the list of its statements, texts are compared as python would read them when they hold no quote, backslash
or line feed (scripts with others are refused altogether); the variables of a script and the classes it imports live in separate name
spaces; types, labels and positions of variables are left out, positions of blocks are pairs of integers, arguments have the kinds of
their signatures, user classes and subclasses of blocks with their own _to_script are left out.

Scripts of runs (C50): the lines of the script of the workflow that do not pipe or lock are supposed not to hold texts as
"block_0.inputs[0]", which names and documentation of the user may hold; sequences other than lists and tuples, and types other than
builtins, classes and aliases of typing or of generic classes, are left out; whether repr writes an expression and what a class does
when called on the text asking for arguments are parameters; classes that are builtins count as not imported.

Clusters (C51, C52): the algorithms of sklearn are not modelled, a clustering is any list of labels. The order of
list(set(labels)) and of list(set(labels).difference({-1})) are parameters, any order is allowed; that CPython lists the set
of -1 and 7 with -1 first is not proved, the model of its order in the examples leaves out collisions. Means and distances are
functions of the objects, compared without NaN. Plots are reduced to the positions of each family of points.

Excel (C53 to C55): openpyxl is a contract: cells, links and titles are loaded as saved, but for empty texts, which become empty
cells, and formulas, which have no value; titles of sheets are supposed to be different from one another whatever their case, and
from "Sheet". Styles, widths of columns and filters are left out. Floats are rationals, and rounding, the text of values and
ast.literal_eval, which may only raise ValueError or SyntaxError, are parameters. Objects have a to_dict method and are true in a
condition; calling a class sets each parameter as an attribute of the same name.

Saved workflows (C56): keys of dictionaries that hold no nested workflow are modelled one by one, those that do as fields. Classes found by name are
their module and name; the types of variables, the resetting of types of deserialize_pipes, and old keys (imposed_variable_values, input_names)
are not modelled. An Export comes back with a ClassMethodType in place of a MethodType, which plays no part here. Positions are pairs,
whatever the container. The NAME_VARIABLE shared by all workflows is taken as never edited.

Layouts (C57, C58): networkx is a contract: dag_longest_path gives a longest path or raises NetworkXUnfeasible (EvalError 0) when there
is a cycle, shortest_simple_paths lists the simple paths in any order or raises when there is none, connected_components any listing
of the classes; the order of the nodes of a subgraph is any order. LayoutNetworkx.v has functions that meet these contracts. Blocks are
their positions, variables outside blocks their identities; weights of edges and the fields of get_layout data are left out.

Parallel plots (C59): values of attributes are rationals (any value python can compare and hash behaves alike for what is modelled);
the squared coefficient of numpy.corrcoef is a parameter, symmetric where said, never nan; the made up scores 1, 9/10, 8/10... are exact;
an iteration over a set of names gives them in any order; names are compared by the codes of their characters. The drawing itself
(plot_data) is not modelled, plot_parallel_plot being the list of its axes or the attribute of a histogram.

Displays (C60): a class is the list of its members with what parsing their source gives (the exception of getsource or ast.parse
is a value); decorators are a name, an attribute or anything else, and an effect on the attributes of the function; arguments of
settings are empty. The methods of the object, serialisation and cleandoc are parameters that may raise anything; a traceback is
the exception. reference paths are not modelled.

Exports (C61): the content of a stream is a text or the entries of an archive, its encoding is not modelled; a name is read from an
archive as zipfile does, the last entry winning; the methods that write are parameters that may raise, and where said do not
rename the stream. The formats of the export blocks of a workflow are given, as are the streams that the evaluation of their
branch gives (C46, C47 say what evaluating a branch is).

Displays of runs (C62): values are those of PyValue.v; the generic lookup of a path that is not below values, to_markdown, int and
isdigit (for decimal notation only) are parameters. The text of a display is not cleaned. Display blocks have at least one input.
MultiPlot is its two lists of samples and two axes; plot_data itself is not modelled. The reference path given to the block when it
is displayed is not passed through evaluate (as in C46), multiplot has it as an argument.

Docstrings (C63): characters are ASCII; the regular expression free parsing of the code (str.split, strip) is modelled on lists of
characters. Annotations are those of the member, given by name.

Schemas (C64, C65): what a class is (measure, file, DessiaObject, display, other) is a parameter, as is to_dict of objects and whether
the schema of a class can be built, which default_value does for nothing. A measure is an object with a float; a text that is a number
is not read as one. Computed default values of classes, check lists, get_import_names and get_type_hints are not modelled; UNDEFINED is an
object of class object without attribute.

Printing of datasets (C66): the text of a value and of an entry of the matrix, and hex(id(self)), are parameters; characters are ASCII.

Files and streams (C67): UTF-8 encoding, json.dump and json.loads, to_dict and dict_to_object, to_script and the workbook of the template of XLSXFile are parameters; lines end with a line feed in files, as on Linux.

Word documents (C68): python-docx is a list of what was added, refusing headings above level 9; texts are ASCII; images, section margins, headers and footers are left out.

Descriptions (C69): the text of a rounded number and humanize.naturalsize are parameters; names of objects are ASCII texts and names of classes identifiers; times are integers.

Decision trees (C70): the package dectree is not in the repository; its NextNode is trusted to go down after a viable node with possibilities, else to the next brother of the deepest node that has one. Sorted and unique nodes are left out.

Sizes (C71): sys.getsizeof gives any number; the kinds of objects (text, mapping, other container, other) are those of collections.abc; quotients are exact.

Arguments of methods (C72): reading a value with an annotation and default values are any functions; annotations that have no schema are left out (C62); messages are left out.

Cuts and regions (C73): nodes are numbers; nx.ancestors is any function that gives the nodes with a walk to a node; the search in depth is that of networkx.dfs_edges; the degree of an iterator is a view, not 1.

Mixes of packages (C74): fractions are rationals, not floats; a block is known by the module it uses, by its blocks, or has no mix.

Offered displays (C75): upstream inputs of an output are given (their search is in C46); outputs are distinct, as keys of a dictionary.

Values of blocks (C76): the well formed workflows of C22-C26; python's int on keys is any partial function; negative indices of inputs are not given by blocks.

Drawn graphs (C77): layout and str of integers are parameters; booleans as nodes are left out; the constant font of edges is left out.

Forms of runs (C78): the schema of a type and its dictionary are parameters (C64 is about them), so are the block of a variable, its documentation and prettyname (C63).

Analysis of pointers (C79): the edges are given (C10 is about the graph), so is the class at a path, which fails with AttributeError only.

Attribute blocks (C80): objects are a heap of instances, lists and dictionaries with strings as keys; properties, class attributes, __slots__, attributes of builtin values and dictionaries with a reference marker are left out. int() of a segment is a parameter.

Matching of variables (C81): typematch (C12) is a parameter that may raise; str of an address is taken to be the address.

Types beside values (C82): finding a class by its name, dict_to_object and iterating over something that is no list are parameters that may raise; ast.literal_eval of the name of a builtin raises ValueError; values that are of several kinds at once are left out.

Elements apart from the output (C83): nx.ancestors is written as a search by rounds; the cache of the graph is left out; NetworkXError is the exception EvalError 0.

Older reading of typings (C84): which names can be imported is a parameter; a module that is not found and a name it lacks are one error; the text comes from the model of serialize_annotation (C15).

Borders of Pareto domains (C85): costs are rational numbers, computed exactly; rows have the same length; numpy's argmin, min and max raise ValueError on nothing.

Pretty annotations (C86): a class is given by its full name, its own name is what follows the last dot.

Serializable values (C87): which numbers, strings and keys orjson writes are parameters; its limit of depth is left out.

Word documents (C88): python-docx is modelled by the list of what was added, its tables by flat lists of cells where cell (i, j) is number j + i * columns, as its code does; sections, pictures and files are left out.

Check of docstrings (C89): as for C63; get_type_hints is a parameter, and what inspect says of an element too.

Means of clusters (C90): as for C30 and C51; rationals without rounding; clustered datasets that are already split are left out.

Widths of columns (C91): texts of values are a parameter; openpyxl's sheets are lists of columns of the same number of cells.

Documentation of inputs (C92): what parse_docstring gives is a parameter of blocks (see C63 and C89 for its parser); variables are numbers, those of a block and of its workflow distinct as the constructors copy them.

Cache of arguments (C93): values are opaque and have no __copy__; constructors keep each argument in the attribute of the same name.

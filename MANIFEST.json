{
 "claims": [
  {
   "property": "C01",
   "status": "proved",
   "theorems": [
    "C01_stays_loaded"
   ],
   "note": "C01_stays_loaded: A file that Proto returned once is returned again after any client program, with the same AST, without looking at resolvers or files ([available] holds for every environment). Concrete cases meeting the hypotheses: C01_example."
  },
  {
   "property": "C02",
   "status": "proved",
   "theorems": [
    "C02_load_terminates"
   ],
   "note": "C02_load_terminates: Loading terminates, with one and the same result for every bound on the recursion depth from the size of the import closure on. Concrete cases meeting the hypotheses: C02_example."
  },
  {
   "property": "C03",
   "status": "proved",
   "theorems": [
    "C03_parsed_once",
    "C03_spelling_refuted"
   ],
   "note": "C03_parsed_once: Two files in the memory of a registry, parsed under the same path, are one and the same. C03_spelling_refuted: \"Parsed at most once\" is about one spelling of the path: a resolver may serve two spellings from one file, which then is loaded twice, with different nodes for the same message. Here a program loads a.proto and gets the node of p.A, then loads m.proto, which imports the same file as ./a.proto: p.A now stands for the second copy, and the type of M.a is not the node the program has got. Theorems named _refuted prove that the code deviates where the statement says so. Concrete cases meeting the hypotheses: C03_example."
  },
  {
   "property": "C04",
   "status": "proved",
   "theorems": [
    "C04_imports_available",
    "C04_after_panic_refuted"
   ],
   "note": "C04_imports_available: As long as no call of Proto panicked: a returned file comes with all files it transitively imports. C04_after_panic_refuted: Without the assumption the property fails: after a recovered panic Proto returns a file whose import is not available and whose message cannot be looked up. Theorems named _refuted prove that the code deviates where the statement says so. Concrete cases meeting the hypotheses: C04_example."
  },
  {
   "property": "C05",
   "status": "proved",
   "theorems": [
    "C05_declarations_found",
    "C05_exact_declaration"
   ],
   "note": "C05_declarations_found: Every declaration of a returned file and of the files it transitively imports is found by its fully qualified name. C05_exact_declaration: If fully qualified names are unique, it is the node of that very declaration, with the Go type of its kind. Concrete cases meeting the hypotheses: C05_example."
  },
  {
   "property": "C06",
   "status": "proved",
   "theorems": [
    "C06_index_is_qualified_name",
    "C06_enum_value_index_empty",
    "C06_file_index",
    "C06_file_index_direct"
   ],
   "note": "C06_index_is_qualified_name: NodeIndex of every declaration except enum values is its fully qualified name. [k] ranges over the Go types a node for that element can have. C06_enum_value_index_empty: NodeIndex of an enum value is always empty. C06_file_index: NodeIndex of a file is the scope of its package or empty; it is the scope of the package if the file has a package statement and was asked for directly. Concrete cases meeting the hypotheses: C06_example."
  },
  {
   "property": "C07",
   "status": "proved",
   "theorems": [
    "C07_lookup_inverts_index",
    "C07_oneof_type_refuted",
    "C07_file_refuted"
   ],
   "note": "C07_lookup_inverts_index: For every declaration node other than files, obtained by any route at any time: looking up its index gives back that node. C07_oneof_type_refuted: The types of oneof and map fields are excluded for a reason: their index is that of the field, and looking it up gives the MessageField. C07_file_refuted: So are files: a package is not a declaration. Theorems named _refuted prove that the code deviates where the statement says so. Concrete cases meeting the hypotheses: C07_example."
  },
  {
   "property": "C08",
   "status": "proved",
   "theorems": [
    "C08_found_is_declared"
   ],
   "note": "C08_found_is_declared: A node found by name is the node of a declaration, of the right kind, of a loaded file, whose fully qualified name is the one asked for. Concrete cases meeting the hypotheses: C08_example."
  },
  {
   "property": "C09",
   "status": "proved",
   "theorems": [
    "C09_error_changes_nothing"
   ],
   "note": "C09_error_changes_nothing: Asking for a file that is neither loaded nor can be found, read and parsed gives an error and leaves the registry as it was. Concrete cases meeting the hypotheses: C09_example."
  },
  {
   "property": "C10",
   "status": "proved",
   "theorems": [
    "C10_refuted",
    "C10_never_reported",
    "C10_missing_import"
   ],
   "note": "C10_refuted: The claim fails: a missing import is not an error but a panic, and asking again succeeds. C10_never_reported: What holds instead, for every missing or unreadable transitive import: no call reports success or an error, whatever the bound on the recursion depth. C10_missing_import: but a panic if the import closure is finite, and after it the file is there: asking for it again gives it without reading anything. Theorems named _refuted prove that the code deviates where the statement says so. Concrete cases meeting the hypotheses: C10_example."
  },
  {
   "property": "C11",
   "status": "proved",
   "theorems": [
    "C11_first_resolver_serves",
    "C11_resolver_error",
    "C11_not_found"
   ],
   "note": "C11_first_resolver_serves: The content of a newly loaded file is what the first resolver that knows it points to. Concrete cases meeting the hypotheses: C11_example."
  },
  {
   "property": "C12",
   "status": "proved",
   "theorems": [
    "C12_elements_stay",
    "C12_index_stays",
    "C12_names_stay"
   ],
   "note": "C12_elements_stay: AST elements stay where they are, with the same content. C12_index_stays: NodeIndex of a node gives the same later. C12_names_stay: A name that could be looked up can still be looked up later. Concrete cases meeting the hypotheses: C12_example."
  },
  {
   "property": "C13",
   "status": "proved",
   "theorems": [
    "C13_queries_do_not_change_schema"
   ],
   "note": "C13_queries_do_not_change_schema: A program without Proto calls leaves files, names and qualified names untouched, whatever its outcome. Concrete cases meeting the hypotheses: C13_example."
  },
  {
   "property": "C14",
   "status": "proved",
   "theorems": [
    "C14_innermost_scope",
    "C14_unresolved_only_if_undeclared"
   ],
   "note": "C14_innermost_scope: A relative type name denotes the declaration of that name in the innermost scope that has one: no scope between the place of use and [take k comps] declares it. C14_unresolved_only_if_undeclared: and it is unresolved only if no enclosing scope, the root included, declares it. Concrete cases meeting the hypotheses: C14_example."
  },
  {
   "property": "C15",
   "status": "proved",
   "theorems": [
    "C15_absolute_name",
    "C15_absolute_unknown"
   ],
   "note": "C15_absolute_name: A name with a leading dot is looked up as it is, whatever the scope. Concrete cases meeting the hypotheses: C15_example."
  },
  {
   "property": "C16",
   "status": "proved",
   "theorems": [
    "C16_scalars_not_shadowed",
    "C16_map_value_not_shadowed",
    "C16_repeated_type"
   ],
   "note": "C16_scalars_not_shadowed: A scalar type name denotes the builtin type of that name in every registry whatsoever. C16_repeated_type: The type of a repeated field is a Repeated, that of a oneof or map field a OneOf or Map, of other fields neither. Concrete cases meeting the hypotheses: C16_example."
  },
  {
   "property": "C17",
   "status": "proved",
   "theorems": [
    "C17_type_of_field",
    "C17_method_message",
    "C17_name_clash_refuted",
    "C17_enum_value_refuted"
   ],
   "note": "C17_type_of_field: The complete answer for names that are not scalars: with [q] the declaration the name denotes, the type is the node of [q] if [q] is a message or an enum (or an enum value), the call panics if [q] is anything else, and nil is returned if the name denotes nothing. C17_enum_value_refuted: An enum value is accepted as the type of a field. Theorems named _refuted prove that the code deviates where the statement says so. Concrete cases meeting the hypotheses: C17_example."
  },
  {
   "property": "C18",
   "status": "proved",
   "theorems": [
    "C18_unresolved",
    "C18_method_unresolved_panics",
    "C18_repeated_refuted"
   ],
   "note": "C18_unresolved: A type name that denotes nothing gives nil for fields, for the element type of repeated fields and for branches; the input and output of methods panic. Theorems named _refuted prove that the code deviates where the statement says so. Concrete cases meeting the hypotheses: C18_example."
  },
  {
   "property": "C19",
   "status": "proved",
   "theorems": [
    "C19_one_node_per_declaration"
   ],
   "note": "C19_one_node_per_declaration: Whatever two API calls (or loop steps) hand out for the same AST element, at two moments of any history, is the same node. Concrete cases meeting the hypotheses: C19_example."
  },
  {
   "property": "C20",
   "status": "proved",
   "theorems": [
    "C20_equal_nodes_same_element",
    "C20_equality_decides_types"
   ],
   "note": "C20_equal_nodes_same_element: Two nodes handed out by API calls (Registry.Proto included) that are == are the same Go object for the same AST element; in particular nodes of different elements are never ==. C20_equality_decides_types: == decides identity of declarations: messages and enums obtained by any routes are == exactly if they are the same element of the same file. Concrete cases meeting the hypotheses: C20_example."
  },
  {
   "property": "C21",
   "status": "proved",
   "theorems": [
    "C21_field_type_fixed"
   ],
   "note": "C21_field_type_fixed: The type of a field, nil included, is the same forever and asking for it again changes nothing. Concrete cases meeting the hypotheses: C21_example."
  },
  {
   "property": "C22",
   "status": "proved",
   "theorems": [
    "C22_type_comparison_exact"
   ],
   "note": "C22_type_comparison_exact: The comparison linters write, field.Type(r) == r.NodeByFullName(q), is exact: for a field that is not repeated and whose type was not asked before, it holds exactly if the declared type name denotes [q]. Concrete cases meeting the hypotheses: C22_example."
  },
  {
   "property": "C23",
   "status": "proved",
   "theorems": [
    "C23_one_file_node",
    "C23_proto_file_is_fresh",
    "C23_proto_file_is_fresh_before",
    "C23_proto_file_refuted"
   ],
   "note": "C23_one_file_node: NodeFile of any two nodes of elements of one file, and the last node of their hierarchies, are one and the same node, at any times (the instance of C19 for files). C23_proto_file_is_fresh: The File returned by Registry.Proto, however, is a new object every time: it is == to no node handed out before or afterwards, although it denotes the same AST. C23_proto_file_refuted: \"Proto(path) == NodeFile(n)\" for a node n of that file is false. Theorems named _refuted prove that the code deviates where the statement says so."
  },
  {
   "property": "C24",
   "status": "proved",
   "theorems": [
    "C24_parent_of_child",
    "C24_parent_in_everything",
    "C24_parent_of_option"
   ],
   "note": "C24_parent_of_child: Let [NAst k a p] be the node of a container, obtained by any route. Whatever happens later, every node [n] a loop over one of the container's iterators sees has that node as its NodeParent, for ever. Concrete cases meeting the hypotheses: C24_example."
  },
  {
   "property": "C25",
   "status": "proved",
   "theorems": [
    "C25_hierarchy",
    "C25_of_declaration"
   ],
   "note": "C25_hierarchy: For a node of the element at [p] NodeHierarchy yields the node and then exactly the nodes of the containers of the element, innermost first; each is the NodeParent of the one before and the last one has no parent. Concrete cases meeting the hypotheses: C25_example."
  },
  {
   "property": "C26",
   "status": "proved",
   "theorems": [
    "C26_node_file",
    "C26_node_file_ends_hierarchy"
   ],
   "note": "C26_node_file: NodeFile of a node of an element is the node of the file the element is declared in. C26_node_file_ends_hierarchy: and it is the last node of NodeHierarchy, whichever is asked for first and whatever happens in between. Concrete cases meeting the hypotheses: C26_example."
  },
  {
   "property": "C27",
   "status": "proved",
   "theorems": [
    "C27_handed_out",
    "C27_parent_of_element",
    "C27_parent_in_group",
    "C27_type_parents_refuted",
    "C27_value_parents_refuted",
    "C27_value_parents_later"
   ],
   "note": "C27_handed_out: What API calls hand out is a node of an element, a map type, a builtin type or a Repeated of a builtin or unresolved type. C27_parent_of_element: of the nodes of elements all have a parent, the node of the container, except files, whose parent is nil. C27_parent_in_group: members of groups have none. C27_type_parents_refuted: and the other nodes panic, always. C27_value_parents_refuted: The parent of an option's value and of the values in it is never a node: NodeParent panics or gives nil. C27_value_parents_later: It panics at most once: after the first call, recovered or not, it gives nil for ever. Theorems named _refuted prove that the code deviates where the statement says so. Concrete cases meeting the hypotheses: C27_example."
  },
  {
   "property": "C28",
   "status": "proved",
   "theorems": [
    "C28_iterator_yields_children",
    "C28_loop_sees_children"
   ],
   "note": "C28_iterator_yields_children: Collecting an iterator over the children of kind [sel] of a container gives one node per child of that kind, in source order, and nothing else; it never panics. C28_loop_sees_children: The same for loops whose body does anything else with the registry (loading files included) but never breaks. Concrete cases meeting the hypotheses: C28_example."
  },
  {
   "property": "C29",
   "status": "proved",
   "theorems": [
    "C29_break_sees_prefix",
    "C29_rest_untouched"
   ],
   "note": "C29_break_sees_prefix: Whatever the loop body does and whenever it breaks, the loop sees an initial segment of the children. C29_rest_untouched: A loop that stops after [k] elements returns the first [k] and leaves the registry's record of every element but these [k] as it was. Concrete cases meeting the hypotheses: C29_example."
  },
  {
   "property": "C30",
   "status": "proved",
   "theorems": [
    "C30_lookup_agrees_with_iterator",
    "C30_file_lookup_agrees",
    "C30_extend_block_refuted"
   ],
   "note": "C30_lookup_agrees_with_iterator: A lookup by name returns the first node of the corresponding iterator whose Name() is that name, nil if there is none, at any time after the iteration. C30_file_lookup_agrees: File.Message and File.Type: the same, if the file has no extend block with that text as name. C30_extend_block_refuted: Without that condition it is false: a lookup in meta.proto returns an extend block, although the iterator yields no message at all. Theorems named _refuted prove that the code deviates where the statement says so. Concrete cases meeting the hypotheses: C30_example."
  },
  {
   "property": "C31",
   "status": "proved",
   "theorems": [
    "C31_everything_loop",
    "C31_everything",
    "C31_comment_refuted",
    "C31_runs",
    "C31_nodeless_panics",
    "C31_first_fault"
   ],
   "note": "C31_everything_loop: A loop over Everything (with a body that only queries) sees, for the children in source order: for an option statement an Option, for every other element the node that represents it, nil if none does. If it never stops early it sees all children. C31_everything: If every element is represented by a node or is an option statement whose name stands for a field in the root scope, collecting Everything succeeds and gives one non-nil node per element. C31_runs: Every element without a node makes one run over Everything panic, provided the option statements have names that stand for fields in the root scope: of the runs in a row, the first ones panic, each about one of the elements without a node, in source order and no element twice, and all others give the whole list. In a registry on which nothing but loads was done, every element without a node has its run. C31_nodeless_panics: In a registry on which nothing but loads was done an element without a node makes Everything panic, whatever the other elements are. C31_first_fault: In a registry on which nothing but loads was done, collecting Everything gives one entry per element if nothing is wrong with any of them, and otherwise panics with what is wrong with the first element something is wrong with. Theorems named _refuted prove that the code deviates where the statement says so. Concrete cases meeting the hypotheses: C31_example, C31_runs_example, C31_first_fault_example."
  },
  {
   "property": "C32",
   "status": "proved",
   "theorems": [
    "C32_unknown_name",
    "C32_unknown_name_outcomes",
    "C32_same_answer_refuted"
   ],
   "note": "C32_unknown_name: A name nobody declares never gives a node: the first time such a name is looked up the call panics, and from then on nil is returned for every undeclared name. C32_unknown_name_outcomes: The two outcomes of the premise are the only ones. C32_same_answer_refuted: So the same question is answered differently the second time. Theorems named _refuted prove that the code deviates where the statement says so."
  },
  {
   "property": "C33",
   "status": "proved",
   "theorems": [
    "C33_options",
    "C33_options_loop",
    "C33_unknown_option_panics",
    "C33_name_custom",
    "C33_name_predefined"
   ],
   "note": "C33_options: Collecting the options of a node gives exactly one option per option statement, in the order of the statements, each about its statement, if every statement's name stands for a field. C33_options_loop: A loop over the options whose body only queries the registry (and may stop early): it sees the options of the first statements, of all of them if it never stops. C33_unknown_option_panics: If the name of some statement stands for no field, collecting the options panics, with what [option_complaint] says about the first such statement. C33_name_custom: An option whose field is not one of the fields of the options message has, for ever, the name written in the statement. C33_name_predefined: An option of the options message has the name \"(message).field\". Concrete cases meeting the hypotheses: C33_example."
  },
  {
   "property": "C34",
   "status": "proved",
   "theorems": [
    "C34_custom_option",
    "C34_enum_value_scope_refuted"
   ],
   "note": "C34_custom_option: For the option of a statement whose name refers to [x], and [x] denotes the declaration [d] in the scope of the annotated node: Is(q) holds for q = [d] and for nothing else, for ever. Theorems named _refuted prove that the code deviates where the statement says so."
  },
  {
   "property": "C35",
   "status": "proved",
   "theorems": [
    "C35_predefined_option",
    "C35_shadowed_refuted"
   ],
   "note": "C35_predefined_option: If the name denotes nothing in the scope of the annotated node, the option is the field of the options message with that name. Theorems named _refuted prove that the code deviates where the statement says so."
  },
  {
   "property": "C36",
   "status": "proved",
   "theorems": [
    "C36_option_named",
    "C36_plain_field_panics",
    "C36_fields_refuted",
    "C36_by_own_name_refuted"
   ],
   "note": "C36_option_named: OptionNamed on every optionable node but a plain message field: the option of the first statement with exactly that name (about it in the sense of C33), nil if there is none, a panic if its name stands for no field, with the value [option_complaint] says. C36_plain_field_panics: On a plain message field OptionNamed always panics. C36_fields_refuted: In particular: a field with an option, which Options sees and OptionNamed does not. C36_by_own_name_refuted: The name is that of the statement, not Option.Name: an option of the options message is not found by its Name(). Theorems named _refuted prove that the code deviates where the statement says so. Concrete cases meeting the hypotheses: C36_example."
  },
  {
   "property": "C37",
   "status": "proved",
   "theorems": [
    "C37_method_options",
    "C37_method_options_all",
    "C37_method_options_panic",
    "C37_routes_agree",
    "C37_relative_names_refuted",
    "C37_everything_panics_refuted"
   ],
   "note": "C37_method_options: The options Method.Options yields: names looked up in the root scope. C37_method_options_all: If the names of all statements stand for fields in the root scope, collecting Method.Options gives one option per statement, in source order. C37_method_options_panic: If the name of some statement stands for no field in the root scope, it panics, with what [option_complaint] says about the first such statement. C37_routes_agree: Two options about the same statement, one looked up in the scope of the node (Options, OptionNamed) and one in the root scope (Everything, Method.Options), agree on class and field if the name denotes the same in both scopes: in particular if it is absolute, or denotes nothing in both. Theorems named _refuted prove that the code deviates where the statement says so. Concrete cases meeting the hypotheses: C37_example, C37_method_options_example."
  },
  {
   "property": "C38",
   "status": "proved",
   "theorems": [
    "C38_value",
    "C38_variant"
   ],
   "note": "C38_value: Option.Value gives exactly the content that the literal denotes for the declared field, and panics if it denotes none. Concrete cases meeting the hypotheses: C38_example."
  },
  {
   "property": "C39",
   "status": "proved",
   "theorems": [
    "C39_signed_exact",
    "C39_unsigned_exact",
    "C39_other_text_rejected"
   ],
   "note": "C39_signed_exact: A decimal literal of a signed option gives exactly that integer if it fits into 64 bits, and is rejected otherwise; so is any text that is no decimal literal."
  },
  {
   "property": "C40",
   "status": "proved",
   "theorems": [
    "C40_uint32_refuted",
    "C40_uint_unreadable"
   ],
   "note": "C40_uint32_refuted: what protobuf says, and the code does not do. C40_uint_unreadable: No option of type uint32 or uint64 can be read, whatever its literal. Theorems named _refuted prove that the code deviates where the statement says so."
  },
  {
   "property": "C41",
   "status": "proved",
   "theorems": [
    "C41_single_literal_refuted",
    "C41_repeated_enum_refuted",
    "C41_array",
    "C41_elements_like_singular",
    "C41_scalar_array",
    "C41_unbracketed_is_empty",
    "C41_named_types_unreadable"
   ],
   "note": "C41_array: The value of a repeated option is an array with one element per literal of the bracketed list, in order, each what the literal denotes for the element type. C41_elements_like_singular: Scalar elements denote what they denote for a singular field of the type. C41_scalar_array: and a list of readable scalars always gives an array of exactly these values. C41_unbracketed_is_empty: A literal that is no bracketed list gives the empty array: its value is lost. C41_named_types_unreadable: A nonempty list of a repeated option whose type is not one of the scalars above (an enum, a message, uint32 or uint64) cannot be read. Theorems named _refuted prove that the code deviates where the statement says so."
  },
  {
   "property": "C42",
   "status": "proved",
   "theorems": [
    "C42_oneof_branch_refuted",
    "C42_message",
    "C42_bad_key"
   ],
   "note": "C42_message: A message valued option has one item per entry of the literal, in order, with the entry's key, and the value of each item is what the entry denotes for the message's field of that name. C42_bad_key: An entry whose key is no field of the message, or a map field or a oneof, makes Value panic; a branch of a oneof is no field of the message. Theorems named _refuted prove that the code deviates where the statement says so."
  },
  {
   "property": "C43",
   "status": "proved",
   "theorems": [
    "C43_string",
    "C43_canonical_literal",
    "C43_literal_text"
   ],
   "note": "C43_string: Whatever has happened since Option.Value returned the value: String does not panic and gives exactly the text of the content, and the registry is not changed. Concrete cases meeting the hypotheses: C43_example."
  },
  {
   "property": "C44",
   "status": "proved",
   "theorems": [
    "C44_split",
    "C44_unique",
    "C44_other_nodes",
    "C44_no_descriptor",
    "C44_valid"
   ],
   "note": "C44_split: GoPackageOption of an option of the go_package field gives the path and the name of its text: the text itself and no name if there is no semicolon, what is before and after the first one otherwise ([splits] is a function of the text). For options of other fields and for other nodes it is nil. The registry is not changed. C44_no_descriptor: Without go_package in the descriptor it panics on every option. Concrete cases meeting the hypotheses: C44_example."
  },
  {
   "property": "C45",
   "status": "proved",
   "theorems": [
    "C45_go_package",
    "C45_none",
    "C45_builtin",
    "C45_comment_refuted",
    "C45_relative_option_refuted"
   ],
   "note": "C45_go_package: If the first go_package statement of the file of the node is preceded only by elements GoPackage passes by, GoPackage gives its text, split. C45_none: If all elements are passed by, it gives nil. C45_builtin: Builtin types are in no file. Theorems named _refuted prove that the code deviates where the statement says so. Concrete cases meeting the hypotheses: C45_example."
  },
  {
   "property": "C46",
   "status": "proved",
   "theorems": [
    "C46_builtins_one_to_one",
    "C46_scalar_names",
    "C46_map_keys"
   ],
   "note": "C46_builtins_one_to_one: The scalar names and the builtin types correspond one to one: every builtin is found by its String() and by no other name. C46_scalar_names: Exactly the scalar names are builtin. C46_map_keys: Map keys: all scalars but bytes."
  },
  {
   "property": "C47",
   "status": "proved",
   "theorems": [
    "C47_found_name",
    "C47_type_name",
    "C47_scalar_name",
    "C47_oneof_and_map",
    "C47_total_refuted"
   ],
   "note": "C47_found_name: The name of a message or enum is its fully qualified name, now and forever. C47_type_name: The type of a field or oneof branch is named by what its type name denotes. C47_scalar_name: by its type name if that is a scalar. C47_oneof_and_map: and \"oneof\" for a oneof; TypeName panics on the type of a map field. C47_total_refuted: TypeName panics on enum values (which Type accepts as types) and on Repeated types whose element type could not be resolved: the last two are refutations of totality. Theorems named _refuted prove that the code deviates where the statement says so. Concrete cases meeting the hypotheses: C47_example."
  },
  {
   "property": "C48",
   "status": "proved",
   "theorems": [
    "C48_exact",
    "C48_other_types",
    "C48_well_known"
   ],
   "note": "C48_exact: TypeIsDefined never panics and changes nothing; on a message or enum obtained from the registry at any time it says whether NodeByFullName now gives that very node. C48_well_known: The four predicates for well known types. Concrete cases meeting the hypotheses: C48_example."
  },
  {
   "property": "C49",
   "status": "proved",
   "theorems": [
    "C49_map_value",
    "C49_absolute_panics",
    "C49_same_as_field_refuted"
   ],
   "note": "C49_map_value: The value type of a map: a scalar is C16; any other name is only looked up at the root, and Value panics if no message or enum has that name. C49_absolute_panics: A value type written with a leading dot always panics. Theorems named _refuted prove that the code deviates where the statement says so. Concrete cases meeting the hypotheses: C49_example."
  },
  {
   "property": "C50",
   "status": "proved",
   "theorems": [
    "C50_reserved_values",
    "C50_numbers"
   ],
   "note": "C50_reserved_values: Reserved.Values gives one value per range, covering the same numbers, and then the names, all in source order. C50_numbers: Taken together: exactly the reserved numbers. Concrete cases meeting the hypotheses: C50_example."
  },
  {
   "property": "C51",
   "status": "proved",
   "theorems": [
    "C51_pos",
    "C51_pos_map",
    "C51_pos_unnamed",
    "C51_pos_map_unnamed",
    "C51_builtin_panics",
    "C51_repeated_panics",
    "C51_value",
    "C51_value_literal",
    "C51_value_unnamed",
    "C51_array_panics",
    "C51_item_panics"
   ],
   "note": "C51_pos: Pos of the node of an element is the position of the element; for a file it is line 1; the file name is the path under which the file was loaded. Nothing is changed. C51_pos_map: So is Pos of the type of a map field. C51_pos_unnamed: A file can be loaded under the empty path. Positions in it have no file name, so Pos walks up to the file for its (empty) name: it answers the same, and only the nodes it meets become known. C51_pos_map_unnamed: Pos of the type of a map field of such a file panics: NodeParent does not know these types. C51_builtin_panics: Pos panics on builtin types and on Repeated types. C51_value: Pos of a value - of the option, or inside it - other than an array is the position of the literal it stems from, whatever has happened since. C51_value_literal: Every value inside stems from a literal of the statement. C51_value_unnamed: Where the position of the literal has no file name, Pos panics. C51_array_panics: Pos always panics on arrays and on items of messages. Concrete cases meeting the hypotheses: C51_example, C51_unnamed_example, C51_value_example, C51_unnamed_example."
  },
  {
   "property": "C52",
   "status": "proved",
   "theorems": [
    "C52_comment",
    "C52_no_comment",
    "C52_option_comment_refuted"
   ],
   "note": "C52_comment: Comment gives the lines of the comment in front of the declaration, nothing if there is none. C52_no_comment: Files, options, option values, builtin and repeated types have no comment. C52_option_comment_refuted: So the comment of an option statement cannot be asked for. Theorems named _refuted prove that the code deviates where the statement says so. Concrete cases meeting the hypotheses: C52_example."
  },
  {
   "property": "C53",
   "status": "proved",
   "theorems": [
    "C53_description",
    "C53_other_types_panic"
   ],
   "note": "C53_other_types_panic: On all other types handed out, NodeDescription panics: builtin types, types of map fields, Repeated of a builtin or unresolved type. Concrete cases meeting the hypotheses: C53_example."
  },
  {
   "property": "C54",
   "status": "proved",
   "theorems": [
    "C54_search",
    "C54_search_protoc_first",
    "C54_example",
    "C54_given_order_refuted"
   ],
   "note": "C54_search: The files come from the first of the given roots in byte order, whatever the order they were given in; protoc's directory, if asked for, is searched before them. C54_given_order_refuted: The roots are not searched in the order given: the first root given has the file, and another one is taken. Theorems named _refuted prove that the code deviates where the statement says so."
  },
  {
   "property": "C55",
   "status": "proved",
   "theorems": [
    "C55_duplicate_fails",
    "C55_refuted"
   ],
   "note": "C55_duplicate_fails: A root given twice makes Build fail, even if it is a directory. Theorems named _refuted prove that the code deviates where the statement says so."
  },
  {
   "property": "C56",
   "status": "proved",
   "theorems": [
    "C56_build",
    "C56_bad_root",
    "C56_all_roots",
    "C56_example"
   ],
   "note": "C56_build: Build succeeds exactly if the roots given are directories, none is given twice, and protoc's directory is usable if asked for; it then gives one resolver per root. C56_bad_root: a root that is missing or not a directory makes Build fail. C56_all_roots: and no resolver is left out or added: the roots of the result are those given."
  },
  {
   "property": "C57",
   "status": "proved",
   "theorems": [
    "C57_include",
    "C57_inside",
    "C57_no_stdlib",
    "C57_stdlib",
    "C57_no_protoc",
    "C57_example"
   ],
   "note": "C57_include: With protoc at D/bin/protoc, an import path of ordinary names is looked up as D/include/path, and Build fails if D/include/google/protobuf/any.proto is not there. C57_inside: any import path that stays inside is looked up inside D/include. C57_stdlib: and succeeds if it is, given usable roots."
  },
  {
   "property": "C58",
   "status": "proved",
   "theorems": [
    "C58_plain",
    "C58_inside",
    "C58_any_root",
    "C58_dotdot_leaves",
    "C58_refuted",
    "C58_example"
   ],
   "note": "C58_plain: An import path of ordinary names is looked up below the root under exactly these names. C58_inside: An import path that never climbs above its start (a leading separator, empty components and \".\" do no harm) is looked up at some place below the root, the same for every file system. C58_any_root: A root written in any other way works as some tidy root. C58_dotdot_leaves: A leading \"..\" leaves the root: the file is looked up next to it. C58_refuted: So a root resolver does resolve import paths to files outside its root. Theorems named _refuted prove that the code deviates where the statement says so."
  },
  {
   "property": "C59",
   "status": "proved",
   "theorems": [
    "C59_enum_enums_empty"
   ],
   "note": "C59_enum_enums_empty: Enum.Enums yields nothing and Enum.Enum finds nothing, for every enum. Concrete cases meeting the hypotheses: C59_example."
  },
  {
   "property": "C60",
   "status": "proved",
   "theorems": [
    "C60_name",
    "C60_file_name"
   ],
   "note": "C60_name: Name() of declarations and files, Import.Path, Package.Package and Syntax.Value: what the source says, whatever happened to the registry since the element was first seen, without any effect. C60_file_name: In particular File.Name is the path the file was asked for under (not the path on disk). Concrete cases meeting the hypotheses: C60_example."
  },
  {
   "property": "C61",
   "status": "proved",
   "theorems": [
    "C61_field_number",
    "C61_map_field_number",
    "C61_enum_value_number",
    "C61_branch_number",
    "C61_oneof_panics"
   ],
   "note": "C61_field_number: MessageField.Value, EnumValue.Value and OneOfBranch.Value are the number in the source. C61_oneof_panics: A oneof field has no number: Value panics. Concrete cases meeting the hypotheses: C61_example."
  },
  {
   "property": "C62",
   "status": "proved",
   "theorems": [
    "C62_optional",
    "C62_is_extension"
   ],
   "note": "C62_optional: MessageField.Optional: the [optional] label of plain fields; false for map fields and oneofs. C62_is_extension: Message.IsExtension: whether the element is an extend block. Concrete cases meeting the hypotheses: C62_example."
  },
  {
   "property": "C63",
   "status": "proved",
   "theorems": [
    "C63_package",
    "C63_index_from_package"
   ],
   "note": "C63_package: File.Package is the name in the file's (first) package statement, empty if there is none, for ever. C63_index_from_package: And NodeIndex of a top-level declaration is a dot, that package if there is one and another dot, and the name. Concrete cases meeting the hypotheses: C63_example."
  },
  {
   "property": "C64",
   "status": "proved",
   "theorems": [
    "C64_queries_terminate",
    "C64_programs_terminate"
   ],
   "note": "C64_queries_terminate: Every API call comes back (with a value or a panic), on any arguments, in every state. C64_programs_terminate: Every program made of API calls, loops over iterators, recovered panics and loads of files with finitely many transitive imports terminates; the loops need not break. Concrete cases meeting the hypotheses: C64_example."
  },
  {
   "property": "C65",
   "status": "proved",
   "theorems": [
    "C65_adds_only_imports",
    "C65_adds_all_imports"
   ],
   "note": "C65_adds_only_imports: Whatever the outcome of Proto(path) (file, error or panic), every file it added is reached from path by following the imports of files that were not loaded, and has the content read now. Concrete cases meeting the hypotheses: C65_example."
  },
  {
   "property": "C66",
   "status": "proved",
   "theorems": [
    "C66_order_of_loads",
    "C66_same_answers",
    "C66_same_types",
    "C66_duplicates_refuted"
   ],
   "note": "C66_order_of_loads: Loading the same files in different orders (or several times), with any queries in between, leads to the same loaded files with the same contents. C66_same_answers: Registries with the same files give the same answers, up to the identity of the nodes: the node found under a name is of the same Go type and for the same element of the same file, and has the same NodeIndex. C66_same_types: The type of a field or branch is the same declaration in both. Theorems named _refuted prove that the code deviates where the statement says so. Concrete cases meeting the hypotheses: C66_example."
  },
  {
   "property": "C67",
   "status": "proved",
   "theorems": [
    "C67_no_descriptor",
    "C67_new_registry",
    "C67_broken_import_panics"
   ],
   "note": "C67_no_descriptor: If the descriptor cannot be found, read or parsed, NewRegistry returns an error. C67_new_registry: A registry NewRegistry returns has loaded the descriptor and the files it transitively imports, and nothing else, with the contents read; no node exists yet. C67_broken_import_panics: If a file the descriptor transitively imports cannot be found, read or parsed, NewRegistry returns neither a registry nor an error: it panics if the import closure is finite. Concrete cases meeting the hypotheses: C67_example."
  },
  {
   "property": "C68",
   "status": "proved",
   "theorems": [
    "C68_load_succeeds",
    "C68_new_registry_succeeds"
   ],
   "note": "C68_load_succeeds: Proto(path) returns a file if every file of a finite set containing path and closed under imports is already loaded or can be found, read and parsed; whatever the declarations in them are. C68_new_registry_succeeds: The same for NewRegistry. Concrete cases meeting the hypotheses: C68_example."
  },
  {
   "property": "C69",
   "status": "proved",
   "theorems": [
    "C69_main",
    "C69_no_resolvers",
    "C69_no_registry",
    "C69_no_status_file",
    "C69_no_status_message",
    "C69_no_service_file",
    "C69_no_service",
    "C69_exit_code",
    "C69_program",
    "C69_linter_exact",
    "C69_linter_accepts",
    "C69_bypass_refuted",
    "C69_no_other_field_refuted"
   ],
   "note": "C69_main: main, with the root of the schema in SCHEMA_ROOT: if the resolvers can be built and the conditions of [C69_program] hold, then (with enough fuel) the program ends; what it prints are the lines for the services, in order, and, if there is any, the verdict; the exit code is 0 exactly if every method of the two services follows the rules, and nothing is printed then. C69_no_resolvers: Without resolvers, or without a descriptor, main panics with the error, wrapped. C69_no_status_file: Without the file of the status message main panics with the error Proto returns, wrapped. C69_no_status_message: If the file has no message ResponseStatus, main panics with an error saying so. C69_no_service_file: If the file of a service cannot be read, the program panics when it comes to it, with the error Proto returns, wrapped with the name of the service. C69_no_service: and if the file has no such service, with an error too. C69_exit_code: If the program ends without a panic it prints nothing and exits with 0, or prints the verdict last and exits with 1. C69_program: The whole program of the README: it loads meta/v1/status.proto and then, one after the other, the files of the services, and lints each service as soon as its file is there. With enough fuel it returns, and for every service, in the order of the list, it reports exactly what should be reported with all the files in view. The conditions: the loads succeed and [sL] is what they give; names are unique; meta/v1/status.proto declares the message ResponseStatus and has no extend block of that name; the services are fine; and a file of a later service declares nothing that a reference in the earlier files might mean. C69_linter_exact: The linter of the README, run over one service: for every method, in source order, it reports exactly what it should, and nothing else. [sq] is the full name of the status message. The conditions: the status message has been found, no type of a field has been asked for, no option statement of a method is literally spelled like the argument of OptionNamed (the grammar cannot spell it). C69_linter_accepts: So the linter accepts a service exactly when all its methods follow the rules. C69_bypass_refuted: The README promises more. A method annotated with the option is not exempt: OptionNamed compares its argument with the name as it is written in the statement, parentheses included. C69_no_other_field_refuted: Repeated fields, map fields and oneof branches may use the type freely. Theorems named _refuted prove that the code deviates where the statement says so. Concrete cases meeting the hypotheses: C69_main_example, C69_main_accepts_example, C69_no_status_file_example, C69_no_status_message_example, C69_no_service_file_example, C69_failures_example, C69_example."
  },
  {
   "property": "C70",
   "status": "proved",
   "theorems": [
    "C70_answer_after_queries",
    "C70_loop_after_queries",
    "C70_options_after_queries"
   ],
   "note": "C70_answer_after_queries: Every call of the API that returned [x] in some registry returns the same after any program of queries has run in between (also one whose calls panicked and recovered). C70_loop_after_queries: The elements of every loop over the API, likewise. C70_options_after_queries: Registry.Options followed by a loop, likewise. Concrete cases meeting the hypotheses: C70_example."
  },
  {
   "property": "C71",
   "status": "proved",
   "theorems": [
    "C71_same_program",
    "C71_order_of_loads",
    "C71_file_index_refuted",
    "C71_linter"
   ],
   "note": "C71_same_program: Any program of queries that returns [x1] when run on a registry where only loads were done returns the same on every registry with the same files, whatever the order in which they were loaded there and whatever queries [m0] ran before. C71_order_of_loads: In particular, the order in which a program loads its files does not matter to it. C71_file_index_refuted: One answer does depend on the order: NodeIndex of a File. It is the package of the file if the file was loaded by a call of Proto, and empty if it was loaded as an import of another one. C71_linter: The same files, in whatever order they were loaded and whatever was asked before: the linter, which recognizes the status message with ==, reports the same. Theorems named _refuted prove that the code deviates where the statement says so. Concrete cases meeting the hypotheses: C71_example, C71_linter_example."
  },
  {
   "property": "C72",
   "status": "proved",
   "theorems": [
    "C72_any_history",
    "C72_linter",
    "C72_more_files",
    "C72_later_loads",
    "C72_capture_refuted"
   ],
   "note": "C72_any_history: A program of queries that returns on a registry where only loads were done returns the same after any further program of loads and queries in any order (queries may panic and be recovered), unless a file loaded by then declares something a reference of the first files might mean. C72_linter: Further files that capture no reference of the first ones do not change the report. C72_more_files: A program of queries that returns on a registry where only loads were done returns the same on every registry that has these files and more, loaded in whatever order, unless a further file declares something a reference of these files might mean. Theorems named _refuted prove that the code deviates where the statement says so. Concrete cases meeting the hypotheses: C72_any_history_example, C72_linter_example, C72_example."
  },
  {
   "property": "C73",
   "status": "proved",
   "theorems": [
    "C73_first_range",
    "C73_range",
    "C73_used_up",
    "C73_again",
    "C73_nested",
    "C73_nested_steps",
    "C73_nested_break",
    "C73_others",
    "C73_client"
   ],
   "note": "C73_first_range: The first range over a new iterator is what [node_hierarchy] describes, for every loop body that leaves the iterator alone. C73_range: A range over a new iterator that breaks at the [k]-th element (or runs to the end if there are fewer): it sees the node and its first [k - 1] containers, each the NodeParent of the one before. If it broke, the iterator now stands for NodeHierarchy of the last element seen; if not, it is used up. C73_used_up: A used up iterator yields nothing, whatever the loop and whenever it runs. C73_again: Two ranges over one iterator, with any other use of the registry between them: if the first one broke at the [k]-th element, the second one sees that element again and then the containers after it; if the first one did not break, the second one sees nothing. C73_nested: A loop over the iterator whose body runs over the same iterator to its end, without breaking, panics when it goes on. C73_nested_steps: A loop over the iterator whose body runs over the same iterator, breaks there at the [k]-th element, and then goes on: the outer loop sees every [k]-th element only. If it breaks in its [m]-th run the iterator stands at the last element the inner loop has seen. C73_nested_break: If the outer loop never breaks, it ends, with the iterator used up, if [k] divides the number of elements of the hierarchy, and panics otherwise. C73_others: The other iterators over declarations can be ranged over any number of times: with any use of the registry in between the second range yields the very same nodes, also if the first one broke. C73_client: Programs that keep iterators of NodeHierarchy, range over them repeatedly, or inside loops over them, are programs in the sense of [client]: whatever the theorems say of those holds of them. Concrete cases meeting the hypotheses: C73_example, C73_nested_example, C73_others_example, C73_client_example."
  },
  {
   "property": "C74",
   "status": "proved",
   "theorems": [
    "C74_with_loads",
    "C74_same_answers",
    "C74_no_panic",
    "C74_unlocked_alone",
    "C74_no_lock_refuted"
   ],
   "note": "C74_with_loads: The goroutines may also load files under the lock (all but goroutine [i]). C74_same_answers: It returns the same with any scheduling. ([same_thread t t]: it looks at nodes through the API only.). C74_no_panic: Nor can the others make it panic: whenever it gets the lock its next section returns. C74_unlocked_alone: a goroutine alone does what [wrap] does. C74_no_lock_refuted: Two goroutines without a lock that ask for a declaration nobody asked for before can get different nodes for it: then == tells apart what C19 promises to be one object. Theorems named _refuted prove that the code deviates where the statement says so. Concrete cases meeting the hypotheses: C74_with_loads_example, C74_example, C74_no_lock_example."
  },
  {
   "property": "C75",
   "status": "proved",
   "theorems": [
    "C75_returned",
    "C75_panicked",
    "C75_new_registry",
    "C75_one_reason",
    "C75_unknown_is_nameless",
    "C75_not_exist_refuted",
    "C75_resolve",
    "C75_quote",
    "C75_names_resolver",
    "C75_names_file",
    "C75_build",
    "C75_example"
   ],
   "note": "C75_returned: An error returned by Proto is the reason why the requested file cannot be had, with annotations. C75_panicked: A panic of Proto carries an error, the reason why a file it imports cannot be had. C75_new_registry: NewRegistry: the same for the descriptor. C75_one_reason: The reason is one: a file has at most one, and a file that can be read has none. C75_unknown_is_nameless: A file that no resolver knows: the error says nothing to errors.Is, in particular it is not os.ErrNotExist. C75_resolve: The resolvers of Build: the file is not there exactly if os.Stat says so (os.ErrNotExist, possibly wrapped); its other errors are reported. C75_quote: A text of readable characters is shown as it is between quotes, and different texts are shown differently. C75_names_resolver: If a resolver of Build fails, the error of Proto names it: the root as it was given, or the distribution of protoc. C75_names_file: If a file is found and cannot be read or parsed, the error of Proto names the path that was asked for and the file it was resolved to. C75_build: Build: the error is the one of looking for protoc, of its standard files, of a root (the empty one if a root is given twice), or the library's own for a root that is not a directory. C75_example: A resolver that fails, an import that is missing, a registry without a descriptor, and roots that are missing or given twice. Theorems named _refuted prove that the code deviates where the statement says so. Concrete cases meeting the hypotheses: C75_names_file_example, C75_names_resolver_example."
  },
  {
   "property": "C76",
   "status": "proved",
   "theorems": [
    "C76_line_unique",
    "C76_fault_no_line",
    "C76_quick_start",
    "C76_main",
    "C76_failures"
   ],
   "note": "C76_line_unique: The lines are determined by the schema. C76_fault_no_line: A statement with a fault has no line. C76_quick_start: The program, on a file that is loaded without error: it prints the name and the package of the file, the lines for its option statements in their order, and the lines for its elements in their order; or some option statement has a fault, and it panics with what is to be said about the first one (its name stands for no field, or its literal denotes no value). C76_main: The whole program: if the resolvers can be built, the registry created and the file loaded, it prints what is said above, or panics, as is said above. C76_failures: If the resolvers cannot be built, the registry cannot be created or the file cannot be loaded, the program panics with the error it was given. Concrete cases meeting the hypotheses: C76_example, C76_panics_example."
  },
  {
   "property": "C77",
   "status": "proved",
   "theorems": [
    "C77_value",
    "C77_one_complaint"
   ],
   "note": "C77_value: Option.Value panics exactly when something is wrong with the literal, and the error it panics with says what is wrong first. C77_one_complaint: The complaints cover everything: a literal denotes a content or has something wrong with it, never both, and there is only one thing that is wrong first. Concrete cases meeting the hypotheses: C77_example, C77_texts."
  },
  {
   "property": "C78",
   "status": "proved",
   "theorems": [
    "C78_walk_sees_everything_once",
    "C78_extensions_refuted"
   ],
   "note": "C78_walk_sees_everything_once: The walk returns, whatever the registry was used for before: with one node for every message, field, enum, value, service and method of the file that is not inside an extend block, and with nothing else, nothing twice. C78_extensions_refuted: The field of an extend block is declared, and has a name, but the walk does not see it. Theorems named _refuted prove that the code deviates where the statement says so. Concrete cases meeting the hypotheses: C78_example."
  },
  {
   "property": "C79",
   "status": "proved",
   "theorems": [
    "C79_after_queries",
    "C79_type_graph",
    "C79_broken_panics",
    "C79_second_walk_refuted"
   ],
   "note": "C79_after_queries: The walk collects each message and enum that is needed, directly or indirectly, exactly once, if none of the messages on the way has a field whose type cannot be had, whatever questions [m] were asked about the registry before (also if some of them panicked and the panics were recovered). The depth of the recursion is at most twice the number of elements of the loaded files. C79_type_graph: In particular if no field was asked for its type yet. C79_broken_panics: It panics exactly if one of them, however far away, has such a field. Theorems named _refuted prove that the code deviates where the statement says so. Concrete cases meeting the hypotheses: C79_example."
  },
  {
   "property": "C80",
   "status": "proved",
   "theorems": [
    "C80_agrees",
    "C80_simple_sound",
    "C80_nothing",
    "C80_obstructed",
    "C80_method_agrees",
    "C80_method_simple_sound",
    "C80_refuted_own_name",
    "C80_refuted_compound"
   ],
   "note": "C80_agrees: Wherever the language gives a type name a meaning, the library gives it the same one, unless the name is a simple one and something else than a message or an enum is declared by that name in a scope around the field. C80_simple_sound: The converse for simple names: a message or an enum is returned only if the language says so. C80_nothing: No type is returned only for names the language gives no meaning to. C80_obstructed: What is left: if the innermost scope with anything by a simple name has something there that is neither a message nor an enum, the call does not look further out: for an enum value it returns that value, for a field, a service, a method, a oneof or one of its branches it panics, whatever the language says. C80_method_agrees: Input and output types of methods: wherever the language finds a message, the library returns that message, without exception. C80_method_simple_sound: And for simple names only those, unless an enclosing scope contains a package by that name. C80_refuted_own_name: It is not always so. A field named like its type: the language gives the type a meaning, the library panics. C80_refuted_compound: And a compound name whose first component an inner scope declares without the rest: the language rejects it, the library takes the type from an outer scope. Concrete cases meeting the hypotheses: C80_example, C80_nothing_example, C80_method_example."
  },
  {
   "property": "C81",
   "status": "proved",
   "theorems": [
    "C81_type_name",
    "C81_parent",
    "C81_description",
    "C81_description_of_map",
    "C81_map_key",
    "C81_map_value",
    "C81_field_number",
    "C81_field_optional",
    "C81_options",
    "C81_option_named_of_field",
    "C81_pos_repeated",
    "C81_pos_builtin",
    "C81_method"
   ],
   "note": "C81_type_name: TypeName has a name for a node or panics with the type of what is under Repeated; never anything else. C81_parent: On types of map fields, builtin types and nil, possibly under Repeated, and on items of map values NodeParent panics with a string; nothing is changed. C81_description_of_map: The type of a map field never has a description: the description of its key is asked for first, and that is a builtin type, or no possible key at all. C81_map_key: Key of the type of a map field: every scalar but bytes is accepted, on anything else Key panics with the name of the type as written. C81_map_value: Value of the type of a map field: what C49 says is no value type is named in the panic as written. C81_field_number: Value of a message field: there is one panic, for a oneof. C81_field_optional: Optional of a message field never panics. C81_option_named_of_field: OptionNamed of a plain message field (C36_plain_field_panics) names the node's own type. C81_pos_repeated: Pos of a Repeated type of a message or enum panics with an error about Repeated. C81_pos_builtin: and of a builtin or unresolved type, possibly under Repeated, with the string of NodeParent, which the deferred function calls while the first panic is under way. C81_method: Input and Output of a method whose type is no message: the run-time error of the type assertion says what the type is instead (nothing, a scalar, an enum, an enum value); if the name denotes something that is no type at all the error says what that is for the parser. Concrete cases meeting the hypotheses: C81_example."
  },
  {
   "property": "C82",
   "status": "proved",
   "theorems": [
    "C82_options",
    "C82_one_meaning",
    "C82_only_scopes_hide",
    "C82_hidden",
    "C82_simple_sound",
    "C82_refuted_own_scope",
    "C82_refuted_no_extension",
    "C82_refuted_subfield"
   ],
   "note": "C82_options: If every option statement of an element has a meaning in the language and none of the names is hidden, Options collects one option per statement, and each is, for ever, exactly what the language says. C82_one_meaning: The meaning is one. C82_only_scopes_hide: Only messages and services can hide the name of a custom option of theirs. C82_hidden: A hidden custom name is taken for what hides it. C82_simple_sound: The converse for simple names in parentheses: the option is what the name stands for in the language, unless a package by that name is in between. (It need not be an extension of the options message, see [C82_refuted_no_extension].). C82_refuted_own_scope: It is not so for an extension declared inside the annotated message: there the language finds the outer extension, the library the inner one. C82_refuted_no_extension: And something that is no extension of the options message is accepted: an ordinary field of a message. C82_refuted_subfield: And \"(x).y\", which sets the field y of the message that is the value of the option x, is not supported. Concrete cases meeting the hypotheses: C82_example, C82_simple_sound_example, C82_hidden_example."
  },
  {
   "property": "C83",
   "status": "proved",
   "theorems": [
    "C83_import_order",
    "C83_acyclic",
    "C83_no_file",
    "C83_by_pointer_refuted"
   ],
   "note": "C83_import_order: If Registry.Proto(path) returns a file (and no earlier call panicked), then the walk from path ends, whatever the import graph looks like; it produces exactly the files that are reached by following import statements, each of them once, path last, and every file after the files it imports, unless the two import each other in a cycle; and no file is loaded but those that the first call of Proto loads. C83_acyclic: If no file imports itself, directly or not, every file comes after all files it imports. C83_no_file: If Registry.Proto(path) fails, the walk fails in the same way. C83_by_pointer_refuted: The walk must not compare *File values: if the files import each other in a cycle anywhere below path, the program that keeps *File values never ends, because every call of Registry.Proto returns a new one. Theorems named _refuted prove that the code deviates where the statement says so. Concrete cases meeting the hypotheses: C83_acyclic_example, C83_cycle_example."
  },
  {
   "property": "C84",
   "status": "proved",
   "theorems": [
    "C84_after_a_failed_import",
    "C84_requested_file"
   ],
   "note": "C84_after_a_failed_import: A file first loaded by a Proto call has an import statement, the [i]-th statement, of a file that is neither loaded nor readable. Then, whatever the program does afterwards, and even if the missing file appears, Proto still gives the file, but nothing declared by the statements after the import is ever found by a name, and its NodeIndex is empty. C84_requested_file: The file that is asked for is not loaded, readable, and its [i]-th statement is the first import that leads to a missing file. Then Proto panics (if it comes back at all), exactly the declarations before that statement can be looked up by their names afterwards, and the ones after it never can. Concrete cases meeting the hypotheses: C84_example, C84_requested_example."
  },
  {
   "property": "C85",
   "status": "proved",
   "theorems": [
    "C85_new_files_win",
    "C85_only_new_files",
    "C85_old_declaration_lost"
   ],
   "note": "C85_new_files_win: A load that returns a file: every name declared in a file that the load has added is, from then on, the name of an element of such a file, whatever else declares it. C85_only_new_files: Conversely, whatever a program does, the answer for a name changes only to an element of a file that it has loaded. C85_old_declaration_lost: So an older declaration of the name is no longer found by it, although its NodeIndex is still the name. Concrete cases meeting the hypotheses: C85_example."
  },
  {
   "property": "C86",
   "status": "proved",
   "theorems": [
    "C86_same_type_exact",
    "C86_field_values_exact",
    "C86_load_in_between_refuted"
   ],
   "note": "C86_same_type_exact: The types of two declarations, obtained at any two moments between which no file is loaded, are == exactly if both declare the same scalar type, or the two names denote the same declaration, each in its scope. C86_field_values_exact: The Repeated, OneOf and Map values MessageField.Type gives are ==, whatever is done and loaded before, between and after, exactly if they are the type of the same field. Theorems named _refuted prove that the code deviates where the statement says so. Concrete cases meeting the hypotheses: C86_example, C86_field_values_example, C86_map_example."
  },
  {
   "property": "C87",
   "status": "proved",
   "theorems": [
    "C87_inside",
    "C87_beside",
    "C87_file"
   ],
   "note": "C87_inside: If NodeByFullName of a name is a message or service, and a member is asked for by its name there, then NodeByFullName of the name, a dot and the member's name is that member. C87_beside: Values of enums and branches of oneofs are beside their enum or oneof: the last component of its name is replaced. C87_file: The top level: what a file gives for a name, unless it is an extend block, is found under the name of the package, a dot and the name. Concrete cases meeting the hypotheses: C87_example, C87_file_example."
  },
  {
   "property": "C88",
   "status": "proved",
   "theorems": [
    "C88_up"
   ],
   "note": "C88_up: If NodeByFullName of a name is a node and its NodeParent is asked for, the last component of the name is the name of the node, and what is before it is what the parent stands for. Concrete cases meeting the hypotheses: C88_example."
  }
 ]
}
{"id": "C01", "title": "A loaded file stays loaded", "statement": "If Registry.Proto(path) has once returned a file, then after any further use of the registry (any API calls, further loads, recovered panics) and any change of the file system or resolvers' answers, Registry.Proto(path) returns a file again, without error, denoting the same parsed AST, and without consulting a resolver or reading anything.", "quantifier": "every registry history, every path, every file system before and after", "why_tests_cant": "unbounded histories interleaved with arbitrary file-system changes", "anchors": ["internal/core/registry.go:Registry.Proto", "internal/core/registry.go:Registry.protoFile"]}
{"id": "C02", "title": "Loading terminates on every import graph", "statement": "Registry.Proto terminates (returns, errors or panics, but never recurses forever) whenever the set of files reachable through imports is finite, including self imports and arbitrary import cycles.", "quantifier": "every finite import graph, every registry state", "why_tests_cant": "all graphs of all sizes and all cycle shapes; non-termination cannot be observed by a finite test", "anchors": ["internal/core/visitor_demark.go:VisitImport", "internal/core/registry.go:Registry.demarkFile"]}
{"id": "C03", "title": "Every path is parsed at most once", "statement": "During the whole lifetime of a registry no path is parsed twice: two different ASTs held by the registry have different file names, so one declaration in a file never has two competing AST copies. This holds per spelling of the path: a file imported as a.proto and as ./a.proto is parsed twice, and its declarations get two different nodes.", "quantifier": "every registry history", "why_tests_cant": "invariant over unbounded histories and import graphs (diamonds, cycles, repeated Proto calls)", "anchors": ["internal/core/registry.go:Registry.protoFile", "internal/core/visitor_demark.go:VisitImport"]}
{"id": "C04", "title": "A successful load loads all transitive imports", "statement": "When Registry.Proto(path) returns a file, every file reachable from it by following import statements is available in the registry (Proto of each of them succeeds without reading anything), provided no earlier Proto call on that registry panicked. After a recovered panic the guarantee is lost: Proto can then return a file whose import is missing.", "quantifier": "every import graph, every reachable file at any import depth", "why_tests_cant": "closure over unboundedly long import chains and cycles", "anchors": ["internal/core/visitor_demark.go:VisitImport", "internal/core/registry.go:Registry.demarkFile"]}
{"id": "C05", "title": "Every declaration of a loaded file can be looked up", "statement": "After a successful load every message, field, oneof, oneof branch, map field, enum, enum value, service and method declared in the file, or in any file it transitively imports, at any nesting depth and also inside extend blocks, is found by its fully qualified name with NodeByFullName.", "quantifier": "every file content, every nesting depth, every import graph", "why_tests_cant": "unbounded nesting and import graphs", "anchors": ["internal/core/visitor_demark.go", "internal/core/registry_types.go:NodeByFullName"]}
{"id": "C06", "title": "Fully qualified names are package plus nesting path", "statement": "For every declaration of a loaded file whose package statement comes first, NodeIndex is '.' + package + '.' + the names of the enclosing messages/services + '.' + its own name; oneof branches, enum values and extension fields live in the scope enclosing their oneof/enum/extend block. Enum values are found under that name but their NodeIndex is always empty; NodeIndex of a file is empty or the scope of its package, and is the latter for a file with a package that Proto was called for first.", "quantifier": "every declaration of every loaded file at every depth", "why_tests_cant": "unbounded nesting; interaction of scope save/restore with extend blocks, oneofs and imports", "anchors": ["internal/core/visitor_demark.go", "internal/core/registry_meta.go:NodeIndex"]}
{"id": "C07", "title": "NodeByFullName inverts NodeIndex", "statement": "If no two loaded declarations share a fully qualified name, then for every declaration node n (not a File) obtained from the registry by any route, with a non-empty NodeIndex, NodeByFullName(NodeIndex(n)) == n at any later time. It is not so for the OneOf type of a oneof field (the lookup gives the MessageField) nor for files (the lookup panics).", "quantifier": "every registry history, every node", "why_tests_cant": "quantifies over all schemas and histories", "anchors": ["internal/core/registry_meta.go:NodeIndex", "internal/core/registry_types.go:NodeByFullName"]}
{"id": "C08", "title": "NodeByFullName never invents a declaration", "statement": "Whenever NodeByFullName(q) returns a node, that node is an actual declaration of some loaded file whose fully qualified name is q.", "quantifier": "every registry history and every string q", "why_tests_cant": "soundness over all histories", "anchors": ["internal/core/registry_types.go:NodeByFullName", "internal/core/visitor_demark.go"]}
{"id": "C09", "title": "A failed lookup of the requested file is an error and changes nothing", "statement": "If the requested path itself cannot be resolved, read or parsed, Registry.Proto returns an error (it does not panic) and the registry is left exactly as it was.", "quantifier": "every registry state, path, resolver list and file system", "why_tests_cant": "all resolver answers and all states", "anchors": ["internal/core/registry.go:Registry.Proto", "internal/core/registry.go:Registry.protoFile"]}
{"id": "C10", "title": "What a failed import does", "statement": "If some transitively imported file cannot be resolved, read or parsed, Registry.Proto(path) never reports success and never returns an error either: it panics whenever the import closure is finite; and it is not atomic: asking for path again after recovering returns the file.", "quantifier": "every import graph with at least one unavailable file", "why_tests_cant": "all positions of the failure in all import graphs, plus the state left behind", "anchors": ["internal/core/visitor_demark.go:VisitImport", "internal/core/registry.go:Registry.Proto"]}
{"id": "C11", "title": "Resolver precedence", "statement": "A path is served by the first resolver that does not answer 'does not exist'; a resolver error of any other kind aborts the load with an error; if all resolvers answer 'does not exist' the result is a not-found error.", "quantifier": "every list of resolvers (including user supplied implementations) and every path", "why_tests_cant": "all resolver lists and all answer combinations", "anchors": ["internal/core/registry.go:Registry.protoFile"]}
{"id": "C12", "title": "Loading more files never invalidates earlier results", "statement": "Whatever is loaded later, nodes obtained earlier keep denoting the same AST element, keep the same NodeIndex, and every fully qualified name that could be looked up can still be looked up.", "quantifier": "every registry history, every earlier node or name, every later load (also failing or panicking ones)", "why_tests_cant": "monotonicity over unbounded histories", "anchors": ["internal/core/registry.go", "internal/core/visitor_demark.go"]}
{"id": "C13", "title": "Queries do not change the schema", "statement": "No API call other than Registry.Proto changes which files are loaded, which names are defined, or the fully qualified name of anything, even when the call panics and the client recovers.", "quantifier": "every client program that does not call Proto, including loop bodies that call back into the registry and recovered panics", "why_tests_cant": "all programs over the API", "anchors": ["internal/core/registry_types.go", "internal/core/registry_meta.go", "internal/core/ast_*.go"]}
{"id": "C14", "title": "Relative names resolve to the innermost enclosing scope", "statement": "A relative, non scalar type name used in scope s resolves to s'.name for the longest enclosing scope s' of s (s itself, then one component fewer at a time, down to the root) in which that name is declared: if that declaration is a message or enum it is the type; the type is nil only if no enclosing scope declares the name.", "quantifier": "every scope string, every name, every set of defined names", "why_tests_cant": "all scope depths and all name tables; off-by-one errors at the root", "anchors": ["internal/core/registry_name_resolver.go:resolveNameRaw"]}
{"id": "C15", "title": "Absolute names are looked up verbatim", "statement": "A name starting with a dot resolves exactly if that very name is defined, independently of the scope it is used in.", "quantifier": "every scope, every dotted name, every name table", "why_tests_cant": "all inputs", "anchors": ["internal/core/registry_name_resolver.go:resolveNameRaw"]}
{"id": "C16", "title": "Builtin type names are never shadowed", "statement": "A field, oneof branch or map value whose declared type is one of the 15 protobuf scalar names has that builtin type in every schema, no matter what else is declared; the type of a field is a Repeated exactly if the field is repeated.", "quantifier": "every registry state and every field", "why_tests_cant": "all name tables, including declarations named like builtins", "anchors": ["internal/core/registry_types.go:getTypeByName", "internal/core/registry_types.go:builtinType"]}
{"id": "C17", "title": "A field's type is the declaration its type name denotes, or a panic", "statement": "For a non scalar type name let q be the innermost declaration of any kind the name denotes. MessageField.Type and OneOfBranch.Type give q's node if q is a message, an enum (or an enum value), and panic if q is anything else; Method.Input/Output give q's node if q is a message and panic otherwise. So, unlike in protobuf, declarations that are no types are not skipped: a field named like its own type makes Type panic, and an enum value is accepted as a type.", "quantifier": "every field, branch and method of every loaded schema", "why_tests_cant": "all schemas; interaction of type names with equally named fields, methods, enum values", "anchors": ["internal/core/registry_types.go:getTypeByName", "internal/core/ast_message.go:MessageField.Type", "internal/core/ast_service.go:Method.Input", "internal/core/ast_oneof.go:OneOfBranch.Type"]}
{"id": "C18", "title": "An unresolvable type name", "statement": "MessageField.Type (of singular fields) and OneOfBranch.Type return nil exactly if the type name denotes nothing; Method.Input and Method.Output panic in that case, and Type of a repeated field returns a Repeated without element type, on which NodeParent, Pos and TypeName panic.", "quantifier": "every registry state and every field/branch/method with an undefined type name", "why_tests_cant": "all name tables", "anchors": ["internal/core/registry_types.go:getTypeByName", "internal/core/ast_service.go:Method.Input"]}
{"id": "C19", "title": "One node per declaration, forever", "statement": "Reaching the same declaration by any two routes (iterators, lookups by name, NodeByFullName, NodeParent, type resolution), at any two moments of any registry history, gives == nodes.", "quantifier": "every client program between the two moments, every declaration", "why_tests_cant": "pointer identity over unbounded histories", "anchors": ["internal/core/registry_types.go:wrap"]}
{"id": "C20", "title": "Different declarations have different nodes", "statement": "Nodes for different AST elements are never ==, whatever happened in between, so == on messages and enums decides type identity.", "quantifier": "every registry history, every two declarations", "why_tests_cant": "injectivity over unbounded histories", "anchors": ["internal/core/registry_types.go:wrap"]}
{"id": "C21", "title": "A field's type never changes", "statement": "Once MessageField.Type has returned a value for a field, it returns the identical (==) value forever, whatever is loaded later.", "quantifier": "every client program between two calls", "why_tests_cant": "cache stability over unbounded histories", "anchors": ["internal/core/ast_message.go:MessageField.Type"]}
{"id": "C22", "title": "Type identity test used by linters is exact", "statement": "For a non-repeated field whose type has not been asked before, field.Type(r) == NodeByFullName(q) exactly if the field's declared type name resolves to q from the field's scope and q is a message or enum.", "quantifier": "every schema, field and fully qualified name", "why_tests_cant": "all schemas; both directions", "anchors": ["internal/core/ast_message.go:MessageField.Type", "internal/core/registry_types.go:NodeByFullName", "README.md"]}
{"id": "C23", "title": "One File node per file", "statement": "NodeFile of any two nodes of one file, at any times, and the last elements of their NodeHierarchy, are the same node, and different for different files. The File returned by Registry.Proto is not that node: it is a new object at every call, == to nothing handed out before or after, although it denotes the same AST.", "quantifier": "every registry history and file", "why_tests_cant": "identity over histories", "anchors": ["internal/core/registry.go:Registry.Proto", "internal/core/registry_types.go:NodeFile"]}
{"id": "C24", "title": "NodeParent inverts iteration", "statement": "For every container node c (file, message, enum, oneof, service) obtained by any route and every child x seen in a loop over one of c's iterators, over c.Everything or over its options, NodeParent(x) is c itself, for ever.", "quantifier": "every container, every child, every registry history", "why_tests_cant": "all schemas and nesting depths", "anchors": ["internal/core/registry_types.go:NodeParent", "internal/core/ast_*.go"]}
{"id": "C25", "title": "NodeHierarchy ends in the file", "statement": "For every node of an element not inside a group, NodeHierarchy yields finitely many nodes: the node and then exactly the nodes of its containers, innermost first, the last one being the File node of its file; each element is the NodeParent of the previous one, the last one has no parent.", "quantifier": "every declaration at any nesting depth", "why_tests_cant": "termination and shape for unbounded depth", "anchors": ["internal/core/registry_types.go:NodeHierarchy"]}
{"id": "C26", "title": "NodeFile is the declaring file", "statement": "NodeFile(n) of any declaration node n is the file n is declared in, i.e. the last element of NodeHierarchy(n).", "quantifier": "every declaration of every loaded file", "why_tests_cant": "all schemas and histories", "anchors": ["internal/core/registry_types.go:NodeFile"]}
{"id": "C27", "title": "What NodeParent does on every node the API hands out", "statement": "Every node handed out is a node of an element, the type of a map field, a builtin type, or a Repeated of a builtin or unresolved type. NodeParent gives the container's node for nodes of elements (nil for files), nil or a panic for members of groups, and panics on the other types; on option values it never gives a node: it panics at most once, with the error 'unsupported type *proto.Option', and returns nil ever after.", "quantifier": "every node the API hands out", "why_tests_cant": "all nodes of all kinds", "anchors": ["internal/core/registry_types.go:NodeParent", "internal/core/ast_option_value.go"]}
{"id": "C28", "title": "Iterators yield exactly the declared children in source order", "statement": "File.Imports/Messages/Enums/Types/Services, Message.Fields/Messages/Types, Enum.Values, Service.Methods and OneOf.Branches yield every child of the respective kind exactly once, in source order, and nothing else (extend blocks are not messages).", "quantifier": "every file content and element order", "why_tests_cant": "all element lists", "anchors": ["internal/core/ast_file.go", "internal/core/ast_message.go", "internal/core/ast_enum.go", "internal/core/ast_service.go", "internal/core/ast_oneof.go"]}
{"id": "C29", "title": "Breaking out of an iterator is safe and lazy", "statement": "A loop that stops after k elements has seen exactly the first k elements of the full iteration, and the elements behind them are not touched at all (no node created, no panic possible from them).", "quantifier": "every iterator, every k, every state", "why_tests_cant": "all break points", "anchors": ["internal/core/ast_file.go", "internal/core/ast_message.go", "internal/core/ast_enum.go"]}
{"id": "C30", "title": "Lookup by name agrees with iteration", "statement": "File.Enum/Service, Message.Field/Message/Type, Enum.Value, Service.Method and OneOf.Branch return the first element of the corresponding iterator with that name, and nil exactly if there is none, at any time after the iteration. So do File.Message and File.Type for names of no extend block of the file; for the name of an extend block they can return that block, which is no message.", "quantifier": "every container content and every name", "why_tests_cant": "all element lists, including duplicates and extend blocks", "anchors": ["internal/core/ast_file.go", "internal/core/ast_message.go", "internal/core/ast_enum.go", "internal/core/ast_service.go", "internal/core/ast_oneof.go"]}
{"id": "C31", "title": "Everything yields every element", "statement": "A loop over File/Message/Enum/Service.Everything sees the elements of the source in order: an Option for an option statement, the node of every other element, and nil for elements that have no node (comments, groups, extension ranges, editions). If there are only elements with nodes and option statements whose names resolve in the root scope, it yields exactly one non-nil node per element; a relative custom option name makes it panic, and every element without a node makes one run panic: if nothing but loads was done before, an Everything loop over k such elements panics the first k times (provided the option names resolve), the i-th time with the error 'unsupported type *proto.X' about the i-th of them, and sees all elements from then on. In such a registry the first run panics exactly if an element has no node or is an option statement whose name stands for no field, and the panic is about the first of these.", "quantifier": "every file content", "why_tests_cant": "all element lists", "anchors": ["internal/core/ast_file.go:Everything", "internal/core/ast_message.go:Everything", "internal/core/registry_types.go:wrap"]}
{"id": "C32", "title": "Looking up an undeclared name", "statement": "NodeByFullName of a name nobody declares never gives a node: it panics the first time such a lookup happens in a registry, and from then on returns nil for every undeclared name. So the same question can be answered differently the second time.", "quantifier": "every state and undefined name", "why_tests_cant": "state dependence shows only in particular histories", "anchors": ["internal/core/registry_types.go:NodeByFullName", "internal/core/registry_types.go:wrap"]}
{"id": "C33", "title": "Options yields one option per option statement", "statement": "Registry.Options(node) yields, in source order, exactly one option for every option statement attached to the node, each about that statement, with the options message of the node's kind and the field the statement's name stands for; Option.Name is the statement's name for custom options and '(message).field' for fields of the options message. If the name of a statement stands for no field, iterating panics, with the text 'option field not found' or the failed conversion of the element the name denotes, about the first such statement.", "quantifier": "every optionable node of every loaded file", "why_tests_cant": "all element lists and node kinds", "anchors": ["internal/core/registry_meta.go:Options", "internal/core/ast_option.go:seqOptions"]}
{"id": "C34", "title": "Custom options resolve to their extension field", "statement": "For an option statement whose name refers to x (the parenthesised name), Option.Is(q) holds exactly for the q that x denotes in the scope NodeIndex gives for the annotated node, for ever. For enum values that scope is the root, because their NodeIndex is empty, so an extension of the same package named without the package is not found there.", "quantifier": "every option statement, scope and set of declared extensions", "why_tests_cant": "all scopes and name tables", "anchors": ["internal/core/ast_option.go:newOption", "internal/core/ast_option.go:Option.Is"]}
{"id": "C35", "title": "Predefined options resolve to the descriptor field", "statement": "An option whose name denotes nothing in the scope of the annotated node is the field of that name of the options message of google/protobuf/descriptor.proto (Is and Name say so). If the schema declares that name in an enclosing scope, the option is taken for that declaration instead, or panics.", "quantifier": "every option statement in every schema", "why_tests_cant": "all schemas; clashes with user declarations", "anchors": ["internal/core/ast_option.go:newOption", "internal/core/ast_option.go:Option.Name"]}
{"id": "C36", "title": "OptionNamed finds the option", "statement": "OptionNamed(node, name), for every optionable node but a plain message field, returns the option of the first statement whose written name is exactly name, nil exactly if there is none, and panics if that name stands for no field. On a plain message field it always panics; and an option of the options message is found by its written name, not by its Name().", "quantifier": "every optionable node and name", "why_tests_cant": "all nodes and option lists", "anchors": ["internal/core/registry_meta.go:OptionNamed", "internal/core/ast_option.go:namedOption", "README.md"]}
{"id": "C37", "title": "Which routes to an option agree", "statement": "Options(node) and OptionNamed look the option's name up in the scope of the annotated node, Everything in the root scope; Method.Options like Everything. The options agree in field whenever the name denotes the same declaration in both scopes, in particular for names with a leading dot; otherwise they can refer to different fields, or one of the routes can panic. Method.Options gives one option per statement if every name stands for a field in the root scope, and otherwise panics about the first one that does not.", "quantifier": "every option statement of every loaded schema", "why_tests_cant": "all scopes", "anchors": ["internal/core/ast_option.go", "internal/core/registry_types.go:wrapOption", "internal/core/ast_service.go:Method.Options"]}
{"id": "C38", "title": "Option values have the declared type", "statement": "Option.Value() returns exactly the content the literal denotes for the option field's declared type, and panics if it denotes none; the Go variant is prescribed by that type: bool, signed, unsigned (fixed32/64), float, string, bytes, enum, message (map) or array when repeated.", "quantifier": "every option field type and literal", "why_tests_cant": "all types and literals", "anchors": ["internal/core/ast_option_value.go:buildFromLiteral"]}
{"id": "C39", "title": "Integer option literals are read exactly", "statement": "A decimal literal of a signed (or fixed32/fixed64) option is returned as exactly that integer when it fits into 64 bits, and is rejected with a panic rather than truncated otherwise; any other text (hexadecimal included) is rejected with a panic.", "quantifier": "every decimal literal of any length", "why_tests_cant": "all integers, boundary at +-2^63 and 2^64", "anchors": ["internal/core/ast_option_value.go:buildFromLiteral"]}
{"id": "C40", "title": "uint32 and uint64 options are not readable", "statement": "Option.Value of an option of type uint32 or uint64 panics for every literal: users cannot rely on reading such options (the code compares with the misspelt names uin32 and uin64).", "quantifier": "every uint32/uint64 option", "why_tests_cant": "all literals of the type", "anchors": ["internal/core/ast_option_value.go:buildFromLiteral"]}
{"id": "C41", "title": "Repeated options keep all their elements in order", "statement": "A repeated option's value is an array with exactly one element per element of the bracketed literal, in source order, scalar elements being read like a singular option of the element type; an unbracketed literal gives the empty array (its value is lost), and a nonempty list of enums, messages, uint32 or uint64 makes Value panic.", "quantifier": "every repeated option, literal list and element type", "why_tests_cant": "all lengths and element types", "anchors": ["internal/core/ast_option_value.go:buildFromLiteral"]}
{"id": "C42", "title": "Message valued options keep keys, order and nesting", "statement": "A message valued option yields one item per literal entry, in source order, with the entry's key, and the value of each item is what the entry denotes for the message's field of that name, recursively; a key that is no plain field of the message (unknown, map field, oneof or oneof branch) makes Value panic.", "quantifier": "every aggregate literal of any depth and width", "why_tests_cant": "unbounded nesting", "anchors": ["internal/core/ast_option_value.go:buildFromLiteral"]}
{"id": "C43", "title": "Rendering of option values", "statement": "String() of an option value never panics and gives, at any later time, the text of the content: integers as canonical decimal, bools as true/false, strings verbatim, bytes as decimal list, enums as Enum.VALUE, arrays as [a, b] and messages as {k: v, ...}; so canonical literals are reproduced.", "quantifier": "every option value", "why_tests_cant": "all values, round trip over all integers", "anchors": ["internal/core/ast_option_value.go:String methods"]}
{"id": "C44", "title": "go_package is split at the first semicolon", "statement": "GoPackageOption of an option of the descriptor's go_package field gives Path/Name such that the source is Path if there is no ';' and Path;Name otherwise, with no ';' in Path; for any other option and any other node it returns nil. Without go_package in the descriptor it panics on every option.", "quantifier": "every option and every literal string", "why_tests_cant": "all strings, several semicolons, leading and trailing ones", "anchors": ["internal/core/registry_simple.go:GoPackageOption"]}
{"id": "C45", "title": "GoPackage finds the go_package of the node's file", "statement": "GoPackage(node) returns the split text of the first go_package statement of the file declaring the node, nil if there is none, provided every element before it has a node or is an option whose name stands for a field in the root scope. Otherwise (a detached comment, a custom option named relative to the package, before go_package) it can panic.", "quantifier": "every node of every loaded file", "why_tests_cant": "all files and option orders", "anchors": ["internal/core/registry_simple.go:GoPackage"]}
{"id": "C46", "title": "Scalar type names and builtin types correspond one to one", "statement": "The 15 scalar names map to 15 different builtin types, a builtin's String() is the name it was found by, and no other name is builtin; all but bytes can be map keys.", "quantifier": "every string", "why_tests_cant": "all strings", "anchors": ["internal/core/registry_types.go:builtinType", "internal/core/ast_builtin.go"]}
{"id": "C47", "title": "TypeName names the type", "statement": "TypeName of the type of a field or oneof branch is the fully qualified name for messages and enums, the scalar name for builtins, 'repeated ' + the element's name for repeated fields and 'oneof' for oneofs, for ever. It panics on the type of a map field, on enum values and on Repeated types without element type.", "quantifier": "every field type of every schema", "why_tests_cant": "all types", "anchors": ["internal/core/registry_types.go:TypeName"]}
{"id": "C48", "title": "TypeIsDefined is exact", "statement": "TypeIsDefined(t, q) (and the Any/Empty/Timestamp/Duration variants) never panics and holds exactly if t is the message or enum that NodeByFullName(q) returns; it is false for every other kind of type.", "quantifier": "every type and name in every state", "why_tests_cant": "all states", "anchors": ["internal/core/registry_simple.go:TypeIsDefined"]}
{"id": "C49", "title": "Map key and value types", "statement": "For a map field the key type is the builtin named in the source (all scalars but bytes; otherwise it panics) and the value type is the builtin, or the message or enum of that name in the root scope; Value panics on every other value type name, relative or with a leading dot, also where a plain field of that type would have a type.", "quantifier": "every map field of every schema", "why_tests_cant": "all scopes and type spellings", "anchors": ["internal/core/ast_map.go:Map.Key", "internal/core/ast_map.go:Map.Value"]}
{"id": "C50", "title": "Reserved values denote exactly the reserved numbers and names", "statement": "The numbers covered by Reserved.Values are exactly those covered by the source ranges ('to max' being unbounded) and the names are the source names, in order.", "quantifier": "every reserved statement and every number", "why_tests_cant": "all ranges and numbers", "anchors": ["internal/core/ast_reserved.go:Values"]}
{"id": "C51", "title": "Pos reports the declaring file and source position", "statement": "Pos of a node of an element (Repeated types excepted) and of the type of a map field is its source position, with the path under which the file was loaded as file name (line 1 for files). This holds for a file loaded under the empty path too, except that Pos of the type of a map field panics there. Pos of a value in an option value other than an array is the position of the literal it was read from, if the parser recorded a file name in that position; otherwise, and always for arrays, it panics, with the error 'unsupported type *proto.Option' or, once that has happened, with the failed conversion of the value to a File. Pos also panics on builtin and Repeated types and on items of messages.", "quantifier": "every positionable object handed out by the API", "why_tests_cant": "all kinds of nodes", "anchors": ["internal/core/registry_meta.go:Pos"]}
{"id": "C52", "title": "Comments are the source comments", "statement": "Comment(n) returns the comment lines in front of n's declaration, nothing if there are none, for the node of every element of a file and the type of a map field. For files, options, values, builtin and Repeated types it returns nothing; so the comment of an option statement cannot be asked for.", "quantifier": "every node", "why_tests_cant": "all kinds", "anchors": ["internal/core/registry_meta.go:Comment"]}
{"id": "C53", "title": "NodeDescription distinguishes kinds", "statement": "NodeDescription returns the kind word of the element for every node of an element, 'oneof' for the type of a oneof, with '[]' in front for Repeated types; on the other types handed out (builtins, map types, Repeated of builtins or without element type) it panics.", "quantifier": "every node", "why_tests_cant": "all kinds", "anchors": ["internal/core/registry_meta.go:NodeDescription"]}
{"id": "C54", "title": "The order in which roots are searched", "statement": "The files come from protoc's include directory first, if asked for, and then from the first of the given roots in byte order below which the path exists - whatever the order and grouping of WithRoot calls. Users cannot rely on the order in which they gave the roots.", "quantifier": "every list of roots", "why_tests_cant": "all lists", "anchors": ["internal/core/path_resolvers.go:Build"]}
{"id": "C55", "title": "Duplicate roots make Build fail", "statement": "If a root is given twice, Build returns an error for every file system in which the empty path does not exist, even if all roots are directories.", "quantifier": "every list of roots with duplicates", "why_tests_cant": "all lists", "anchors": ["internal/core/path_resolvers.go:Build"]}
{"id": "C56", "title": "Build reports unusable roots", "statement": "Build succeeds exactly if all roots are directories, none is given twice, and protoc's directory is usable if asked for; it then gives one resolver per root, after the one of protoc if asked for, and otherwise an error and no resolvers.", "quantifier": "every list of roots and every file system", "why_tests_cant": "all lists and file systems", "anchors": ["internal/core/path_resolvers.go:Build", "internal/core/path_resolvers.go:newPathResolverRoot"]}
{"id": "C57", "title": "Standard imports are looked up next to protoc", "statement": "With protoc found at D/bin/protoc (D absolute), WithProtoc looks an import path p of ordinary names up as D/include/p, and any import path that stays inside below D/include; Build fails if D/include/google/protobuf/any.proto does not exist or protoc is not found.", "quantifier": "every installation directory D and import path p", "why_tests_cant": "all path strings; trailing and doubled separators", "anchors": ["internal/core/path_resolvers.go:newPathResolverProtoc"]}
{"id": "C58", "title": "Resolved files lie under the root unless the path climbs out", "statement": "A root resolver looks an import path of ordinary names up below its root under exactly these names, and every import path that never climbs above its start at some place below the root (empty components, '.' and a leading separator do no harm); every root spelling works as some cleaned one. A leading '..' leaves the root: the resolver does resolve such import paths to files outside.", "quantifier": "every root and import path", "why_tests_cant": "all path strings including .. components", "anchors": ["internal/core/path_resolvers.go:pathResolverRoot.Resolve"]}
{"id": "C59", "title": "Enums contain no enums", "statement": "Enum.Enums yields nothing and Enum.Enum finds nothing, for every enum, in every state.", "quantifier": "every enum of every loaded schema, every name", "why_tests_cant": "all enums and histories", "anchors": ["internal/core/ast_message.go:Enums", "internal/core/ast_message.go:Enum"]}
{"id": "C60", "title": "Names, paths and values are the source's", "statement": "Name of a file, message, field, oneof, branch, enum, enum value, service or method, Import.Path, Package.Package and Syntax.Value return exactly the text in the source (File.Name: the path the file was asked for under), at any later time, and have no effect on the registry.", "quantifier": "every element of every loaded file, every later history", "why_tests_cant": "all schemas and unbounded histories", "anchors": ["internal/core/ast_file.go:File.Name", "internal/core/ast_message.go:MessageField.Name", "internal/core/ast_enum.go", "internal/core/ast_service.go", "internal/core/ast_import.go:Import.Path", "internal/core/ast_syntax.go:Syntax.Value"]}
{"id": "C61", "title": "Numbers are the source's", "statement": "MessageField.Value of a plain or map field, OneOfBranch.Value and EnumValue.Value return the number written in the source, at any later time and without effect; MessageField.Value of a oneof panics.", "quantifier": "every field, branch and enum value of every loaded file, every later history", "why_tests_cant": "all schemas and unbounded histories", "anchors": ["internal/core/ast_message.go:MessageField.Value", "internal/core/ast_oneof.go:OneOfBranch.Value", "internal/core/ast_enum.go:EnumValue.Value"]}
{"id": "C62", "title": "Labels are the source's", "statement": "MessageField.Optional is true exactly for plain fields written with 'optional', false for map fields and oneofs; Message.IsExtension is true exactly for extend blocks; both at any later time and without effect.", "quantifier": "every field and message of every loaded file, every later history", "why_tests_cant": "all schemas and unbounded histories", "anchors": ["internal/core/ast_message.go:MessageField.Optional", "internal/core/ast_message.go:Message.IsExtension"]}
{"id": "C63", "title": "File.Package and fully qualified names agree", "statement": "File.Package returns the name in the file's first package statement, the empty string if there is none, at any later time; NodeIndex of a top-level message, enum or service is '.' + Package + '.' + Name (without the package part if it is empty) when the package statement comes first.", "quantifier": "every loaded file and top-level declaration", "why_tests_cant": "all file contents and histories", "anchors": ["internal/core/ast_file.go:File.Package", "internal/core/registry_meta.go:NodeIndex"]}
{"id": "C64", "title": "Every use of the API terminates", "statement": "Every API call other than Proto returns or panics on any arguments in every state, and so does every program made of API calls, arbitrarily nested loops over the iterators (with any loop bodies of this kind, breaking or not, even modifying the registry through further queries and loads), recovered panics and loads of files with finitely many transitive imports.", "quantifier": "every such program, every registry state", "why_tests_cant": "non-termination cannot be observed by a finite test; unbounded nesting of loops and depth of schemas", "anchors": ["internal/core/registry_types.go:NodeHierarchy", "internal/core/registry_name_resolver.go:resolveNameRaw", "internal/core/ast_message.go", "internal/core/registry_meta.go"]}
{"id": "C65", "title": "A load reads exactly the missing imports", "statement": "Whatever the outcome of Registry.Proto(path), every file it adds to the registry is reached from path by following import statements of files that were not loaded before, and has the content read now; if it returns a file, it adds all of these: loading is lazy and complete.", "quantifier": "every import graph, every registry history, every outcome", "why_tests_cant": "all import graphs and states", "anchors": ["internal/core/visitor_demark.go:VisitImport", "internal/core/registry.go:Registry.Proto"]}
{"id": "C66", "title": "The order of loads does not matter", "statement": "Loading the same files in different orders (or repeatedly), with any queries in between, gives registries with the same files and contents; if fully qualified names are unique, NodeByFullName then finds the same element of the same file under every name, with the same Go type, and field and branch types resolve to the same declarations. Where two loaded files declare the same name the last one loaded wins.", "quantifier": "every set of files, every two orders of loading, every name and field", "why_tests_cant": "all permutations of loads over all import graphs (hyperproperty: relates two executions)", "anchors": ["internal/core/registry.go:Registry.Proto", "internal/core/visitor_demark.go", "internal/core/registry_types.go:NodeByFullName"]}
{"id": "C67", "title": "NewRegistry loads the descriptor", "statement": "NewRegistry returns an error if google/protobuf/descriptor.proto cannot be found, read or parsed; a registry it returns has loaded the descriptor and the files it transitively imports, and nothing else; it panics if one of these imports is not available.", "quantifier": "every resolver list and file system", "why_tests_cant": "all environments and import graphs", "anchors": ["internal/core/registry.go:NewRegistry"]}
{"id": "C68", "title": "Loading succeeds when all files are there", "statement": "Registry.Proto(path) returns a file whenever path and its transitive imports form a finite set of files each of which is loaded already or can be found, read and parsed, whatever they declare; likewise NewRegistry.", "quantifier": "every import graph, every content of the files, every registry history", "why_tests_cant": "all graphs of all sizes and all file contents", "anchors": ["internal/core/registry.go:Registry.Proto", "internal/core/registry.go:NewRegistry", "internal/core/visitor_demark.go"]}
{"id": "C69", "title": "The governance linter reports exactly the violations", "statement": "The linter of the README, run over a service once the status message and the service have been loaded, prints, for every unary method in source order, one line (position, type) for each singular field of the response message whose type is the status message and whose name is not response_status, and one line (position, type, name of the method) if no field of that type is named response_status; nothing for methods that stream their response; so it accepts the service exactly when all methods follow these rules. The whole program, which finds the resolvers, makes the registry, loads the status file, and then loads and lints the services one after the other, ends and does this for every service, in order; it prints nothing and exits with 0 exactly if all methods of all services follow the rules, and otherwise prints the lines and the verdict and exits with 1. If the resolvers cannot be built, the descriptor or the status file cannot be read, the status message is missing, or, when the program comes to a service, its file cannot be read or has no such service, it panics with an error saying so that wraps the cause; whenever it ends without a panic it has printed nothing and exits with 0, or has printed the verdict last and exits with 1. Conditions: the files load, names are unique, the types and messages referred to exist, and no file of a later service declares a name that a reference in an earlier file could mean. (It does not honour the option meant to exempt a method, and repeated fields, maps and oneof branches of that type go unnoticed.)", "quantifier": "every schema whose service returns existing messages with resolvable fields, every history before the run", "why_tests_cant": "all schemas and all preceding histories; combines type resolution, node identity (comparison with ==), iteration, positions and names", "anchors": ["internal/readme/main.go:main", "README.md"]}
{"id": "C70", "title": "Queries do not disturb later answers", "statement": "If a call of the query API returns an answer, then the same call on the same arguments returns the same answer (equal data, the same objects up to the identity of freshly created ones) after any program of queries has run in between, including ones that panicked and were recovered; the same for the elements of every iterator and of Registry.Options. (A call that panicked may return nil later, see C32.)", "quantifier": "every registry history, every API call and argument, every intervening query program", "why_tests_cant": "relates two executions with an arbitrary program in between; caches could leak state", "anchors": ["internal/core/registry_types.go:wrap", "internal/core/ast_message.go:MessageField.Type", "internal/core/registry_meta.go", "internal/core/ast_option_value.go"]}
{"id": "C71", "title": "The loaded files determine every answer", "statement": "Take a registry on which only loads were done and a second one with the same files (and contents), loaded in any order, on which any queries were made before. Any program of queries (calls, arbitrarily nested loops with any bodies and breaks, results of calls used as arguments of others, and comparisons of nodes with ==) that returns a result on the first returns the same result on the second: equal data, nodes, options and values for the same elements of the same files, and nodes of declarations that are equal (==) on the first exactly if they are on the second. For instance the linter of the README reports the same. Names must be unique and package statements first. One answer is excluded because it does depend on the order: NodeIndex of a File is the package if the file was loaded by Proto and empty if it was loaded as an import.", "quantifier": "every pair of load histories with the same files, every preceding query program, every program of queries", "why_tests_cant": "relates two executions of an arbitrary program over arbitrary schemas and histories (hyperproperty)", "anchors": ["internal/core/registry.go:Registry.Proto", "internal/core/registry_types.go", "internal/core/registry_meta.go", "internal/core/ast_message.go", "internal/core/ast_option.go", "internal/core/ast_option_value.go", "internal/core/visitor_demark.go", "internal/readme/main.go"]}
{"id": "C72", "title": "Loading further files changes no answers", "statement": "Any program of queries (which may compare nodes with ==) that returns a result on a registry where only loads were done returns the same result (equal data; nodes, options and values for the same elements) on every registry that has these files and any further ones, and in particular on the same registry after any further loads and queries in any order, provided that no further file declares a fully qualified name that equals a name referred to in the old files or ends with a dot and that name (names unique, package statements first, no file with the empty path). Without this proviso a file that nobody imports can change the type of a field or method: lookup ignores which files are imported.", "quantifier": "every registry on which only loads were done, every set of further files, every program of queries", "why_tests_cant": "relates executions of an arbitrary program over two arbitrary schemas (monotonicity, a hyperproperty)", "anchors": ["internal/core/registry.go:Registry.Proto", "internal/core/registry_name_resolver.go:resolveNameRaw", "internal/core/registry_types.go:getTypeByName", "internal/core/visitor_demark.go"]}
{"id": "C73", "title": "The iterator of NodeHierarchy can be used up", "statement": "An iterator obtained from NodeHierarchy(n) (n outside groups) remembers where it is: the first range over it sees n and its containers; a range that runs to the end uses it up, and every later range over it sees nothing; after a range that broke, the next one begins with the very element at which the break happened and goes on from there, whatever was done with the registry in between; a loop whose body runs over the same iterator to its end panics when it goes on; if the inner loops break at their k-th element, the outer loop sees every k-th element only, ends if k divides the number of elements and panics otherwise, and if it breaks itself the iterator stands where the last inner loop broke. Iterators over declarations (Messages, Fields, Values, ...) do not have this trait: every range over them begins anew and yields the very same nodes.", "quantifier": "every node at any nesting depth, every number of elements before the break, every use of the registry between the ranges", "why_tests_cant": "every depth, break point and intervening program; iterators are values that can be kept, which single calls do not show", "anchors": ["internal/core/registry_types.go:NodeHierarchy", "internal/core/registry_types.go:NodeParent", "internal/core/ast_message.go:Fields"]}
{"id": "C74", "title": "Goroutines that share a registry under a lock do not notice each other", "statement": "Let several goroutines use a registry on which files were loaded (and possibly queries made), each taking a lock for every sequence of queries it makes and releasing it in between, and keeping the nodes, options and values it got. A goroutine that returns a result when it has the registry to itself returns the same result with every scheduling (equal data, the same elements; nodes it can compare with == compare the same), and whenever it gets the lock it does not panic, whatever the other goroutines ask, including queries that panic and are recovered. The same holds if the others also load files under the lock, provided that these declare nothing a reference in the files loaded at first might mean (see C72). The lock is needed: on a registry on which files were just loaded, for every declaration that has a node, two goroutines that ask for its node without a lock can be scheduled so that they get two nodes that are not ==, although each alone gets what C19 promises.", "quantifier": "every number of goroutines, every query program of each, every schedule of their critical sections, every loaded schema", "why_tests_cant": "all interleavings of arbitrary programs over arbitrary schemas", "anchors": ["internal/core/registry.go:Registry", "internal/core/registry_types.go:wrap", "internal/core/ast_message.go:MessageField.Type"]}
{"id": "C75", "title": "What errors.Is and Error() tell about a failure", "statement": "An error returned by Registry.Proto, NewRegistry or Build, and the value a missing or broken import panics with (an error), is the reason of the failure with annotations in front: its text ends with the text of the reason, and errors.Is answers for it as for the reason, whatever the target. The reason is the error of the resolver that failed (the first one whose error is not os.ErrNotExist), of os.ReadFile, of the parser, of os.Stat or exec.LookPath; it is unique. If a file was found but cannot be read or parsed, the text names the path and the file. If one of the resolvers of Build failed, the text names it, with the root between quotes, escaped so that different roots read differently. The exception a user may stumble over: a file that no resolver knows gives a new error 'not found' for which errors.Is(err, os.ErrNotExist) is false.", "quantifier": "all registries a client can reach, resolvers (also the client's own), file system answers, error values and targets of errors.Is, import graphs", "why_tests_cant": "errors come from arbitrary resolvers and file systems, wrapped to any depth, and from any import of any import; a test sees the errors it provokes", "anchors": ["internal/core/registry.go:NewRegistry", "internal/core/registry.go:Registry.Proto", "internal/core/registry.go:protoFile", "internal/core/registry.go:readProtoFile", "internal/core/visitor_demark.go:VisitImport", "internal/core/path_resolvers.go:Build", "internal/core/path_resolvers.go:Resolve", "internal/errors/wrap.go:Wrap", "internal/errors/is.go:Is"]}
{"id": "C76", "title": "The Quick Start program of the README prints the file", "statement": "The README's first example (locate protoc, the roots . and ./vendor, create a registry, load a file, print its options, messages and fields) prints: the import path and the package of the file; for each option statement of the file, in source order, a line with the name of the option (as written; for an option declared in google.protobuf.FileOptions itself '(.google.protobuf.FileOptions).' and the name of the field) and the text of the value the literal denotes for the declared type; then, for each top-level message in source order (no extend blocks, no nested messages), its name and a line for each of its fields, a oneof being one field. If the name of some option stands for no declared field, or its literal denotes no value of the field's type, the program panics instead, with the fault of the first such statement; if the resolvers, the registry or the file cannot be had, it panics with the error. Every line is determined by the schema. Condition: the names of options are well formed (balanced parentheses) and the package is a sequence of identifiers.", "quantifier": "every environment and schema in which the file and google/protobuf/descriptor.proto can be loaded, with any options, nesting, messages and fields", "why_tests_cant": "all schemas: combines resolvers, loading, name resolution, option values of any nesting, rendering and iteration; the repository's tests never run it", "anchors": ["README.md", "internal/core/registry_meta.go:Options", "internal/core/ast_option.go:Option.Name", "internal/core/ast_option_value.go", "internal/core/ast_file.go:File.Package", "internal/core/ast_file.go:File.Messages", "internal/core/ast_message.go:Message.Fields", "internal/core/path_resolvers.go:Build"]}
{"id": "C77", "title": "What Option.Value panics with", "statement": "Option.Value on an option that Registry.Options gave panics exactly when the literal denotes no value of the declared field, and the panic value is an error about the first thing wrong, reading the literal from left to right and into lists and message literals: 'convert literal to bool|int|uint: strconv.<function>: parsing <quoted text>: invalid syntax' or '...: value out of range' for a text that is no boolean or number, for which errors.Is finds strconv.ErrSyntax or strconv.ErrRange and nothing else (out of range if the digits read so far already exceed 64 bits, even if what follows is no digit); 'convert literal to float: ' and the error of strconv.ParseFloat; 'unknown enum <type> value <text>'; 'unknown message <message> field <key>'; 'unknown field type: <type>' for a type that is not read (uint32, uint64, a name that denotes nothing or an enum value, an enum or message in a repeated field). 'node *proto.<parser type> does not represent a type' for a type name that denotes something that is no type; the run-time error 'interface conversion: proto.Visitee is *proto.<parser type>, not *proto.NormalField' for a map or a oneof as a field of a message literal. There is always exactly one such reason.", "quantifier": "every loaded schema with identifiers as names, every option, field type and literal, nested to any depth", "why_tests_cant": "all literals of all shapes and all texts, all schemas; a test sees single literals", "anchors": ["internal/core/ast_option_value.go:buildFromLiteral", "internal/core/ast_option.go:Option.Value", "internal/errors/wrap.go:Wrap", "internal/errors/new.go:Newf"]}
{"id": "C78", "title": "A recursive walk reaches every declaration exactly once", "statement": "A client that visits File.Types and File.Services, and for each message its Fields and (recursively) Types, for each enum its Values and for each service its Methods, terminates without panic, whatever the registry was used for before, and collects exactly one node for every message, field (a map or a oneof is one field), enum, value, service and method declared in the file at any depth outside extend blocks, and nothing else. (The fields of extend blocks are not reached this way although they can be looked up by name.)", "quantifier": "every registry a client can reach, every loaded file, any nesting", "why_tests_cant": "unbounded nesting and every prior use of the registry; a test walks the files it has", "anchors": ["internal/core/ast_file.go:File.Types", "internal/core/ast_file.go:File.Services", "internal/core/ast_message.go:Message.Fields", "internal/core/ast_message.go:Message.Types", "internal/core/ast_enum.go:Enum.Values", "internal/core/ast_service.go:Service.Methods"]}
{"id": "C79", "title": "Walking the type graph collects exactly the types that are needed", "statement": "A client that starts at a message or enum and follows Fields and Type, Repeated.Type, Map.Value and OneOf.Branches, collecting every message and enum it meets for the first time (nodes compared with ==), terminates even if the types refer to each other in cycles (with a recursion depth of at most twice the number of elements of the loaded files, plus one), and returns exactly one node for each message and enum that is needed directly or indirectly: a message needs what the type names of its fields and of the branches of its oneofs denote, by protobuf's scope rules, and what the value types of its maps name at the root. Scalars, names that denote nothing and enum values add nothing. It panics exactly if some message that is reached has a field whose type name denotes something that is no type, or a map whose value type is neither a scalar nor the full name, without leading dot, of a message or enum. If there is no such message, the result is the same whatever questions were asked about the registry since the last load; for the panic no field may have been asked for its type before: after a recovered panic the walk can return as if nothing were wrong. Condition: the packages are sequences of identifiers.", "quantifier": "every registry a client can reach whose fields were not asked yet, every message and enum, every schema including cyclic ones", "why_tests_cant": "cyclic type graphs of any size: termination and completeness depend on node identity across all calls, name resolution and caching at once", "anchors": ["internal/core/ast_message.go:Message.Fields", "internal/core/ast_message.go:MessageField.Type", "internal/core/ast_map.go:Map.Value", "internal/core/ast_oneof.go:OneOf.Branches", "internal/core/ast_oneof.go:OneOfBranch.Type", "internal/core/ast_repeated.go:Repeated", "internal/core/registry_types.go:getTypeByName", "internal/core/registry_types.go:wrap"]}
{"id": "C80", "title": "Type names mean what they mean in the protobuf language, except where a name is hidden", "statement": "In a valid schema (unique names, identifiers, package statement first, no declaration named like a package) the type of a field, the element type of a repeated field and the type of a oneof branch are the message or enum that protoc's rules give the type name: for an absolute name the declaration itself; for a simple name the innermost enclosing scope with a message or enum of that name; for a compound name the innermost enclosing scope with a message, enum, service or package named by the first component. Conversely a simple name yields a message or enum only if the language says so, and no type is returned only for names without a meaning. Two deviations are exact: if the innermost scope with anything by a simple name has a field, method, service or oneof (also: the field itself), the call panics, and an enum value there is returned as if it were a type; and a compound name whose first component is declared further inside without the rest is found further outside although the language rejects it. For the input and output of methods, where the language stops at the first thing of any kind, every message the language finds is returned, and for simple names no other (unless a package of that name is in an enclosing scope).", "quantifier": "every loaded schema that is valid in the sense of the language, every field and branch not asked before, every type name", "why_tests_cant": "all schemas and all nestings; compares the lookup with an independent definition of the language", "anchors": ["internal/core/registry_types.go:getTypeByName", "internal/core/registry_name_resolver.go:resolveNameRaw", "internal/core/ast_message.go:MessageField.Type", "internal/core/ast_oneof.go:OneOfBranch.Type"]}
{"id": "C81", "title": "What the other calls panic with", "statement": "The panics of the calls have exact values. TypeName returns a name for messages, enums, oneofs and builtin types, also under Repeated, and on everything else panics with the string 'unsupported type <T>', where T is the Go type of the node under Repeated (<nil> if the element type could not be resolved). NodeParent on types of map fields, builtin types, unresolved types and map items panics with the string 'unsupported node type: <T>'. NodeDescription panics with an error with that text on builtin types, option values and items, and on the type of every map field (with the type of the key, or the complaint about the key type). Pos of a repeated message or enum type panics with an error about *core.Repeated, of a builtin or unresolved type with NodeParent's string. Map.Key accepts every scalar but bytes, Map.Value panics with 'value type <written name> is not supported in maps'. MessageField.Value panics only for oneofs, MessageField.Optional never. Options and OptionNamed panic with an error naming the Go type on every node that is not a file, message, field, enum, enum value, oneof, service or method; OptionNamed on a plain field with 'unsupported payload type: *core.MessageField', and for a statement that is about no field with 'option field not found' or a run-time error naming what the name denotes. Input and Output of a method panic with the run-time error of the type assertion, which names what the type is instead (nil, a scalar, an enum, an enum value), or with 'node *proto.<parser type> does not represent a type'.", "quantifier": "every registry and every node, element and schema, Repeated nested to any depth", "why_tests_cant": "every combination of call and node kind in every registry state", "anchors": ["internal/core/registry_types.go:TypeName", "internal/core/registry_types.go:NodeParent", "internal/core/registry_meta.go:NodeDescription", "internal/core/registry_meta.go:Pos", "internal/core/registry_meta.go:Options", "internal/core/registry_meta.go:OptionNamed", "internal/core/ast_map.go:Map.Value", "internal/core/ast_message.go:MessageField.Value", "internal/core/ast_service.go:Method.Input", "internal/core/ast_option.go:newOption"]}
{"id": "C82", "title": "Option names mean what they mean in the protobuf language, except where a name is hidden", "statement": "In a valid schema (see C80), if every option statement of a file, message, plain or map field, enum, oneof, service or method has a meaning in the language ('(x)' means the extension of the element's options message that protoc's lookup of x finds in the scopes around the element; a bare name the field of the options message by that name) and no name is hidden, Options yields exactly one option per statement, and Option.Is holds, for ever, exactly for the full name the language gives. A bare name is hidden if anything by that name is declared in the element or a scope around it; '(x)' is hidden only if the annotated message or service itself declares x inside (never on files, fields, enums, methods, oneofs), and then the option is taken for that inner declaration. Conversely for a simple name in parentheses the option is what the language's lookup finds (unless a package is in between). Deviations: the inner extension is preferred to the outer one; a field that is no extension of the options message is accepted; '(x).y', which sets a field of a message-valued option, panics.", "quantifier": "every loaded schema that is valid in the sense of the language, every annotated element, every option name", "why_tests_cant": "all schemas, nestings and names; compares the lookup with an independent definition of the language", "anchors": ["internal/core/ast_option.go:newOption", "internal/core/registry_meta.go:Options", "internal/core/ast_option.go:Option.Is", "internal/core/registry_name_resolver.go:resolveNameRaw"]}
{"id": "C83", "title": "Walking the import graph gives the dependency order of the files", "statement": "A client that starts at a path, calls Proto for it, visits the paths of its import statements (File.Imports, Import.Path) in order, skips paths it has visited, and lists a file after its imports, terminates on every import graph, cyclic ones included (recursion depth at most the number of loaded files, plus one), if the first call of Proto returns a file and no earlier call of Proto panicked. It lists exactly the files that are reached by following import statements, each once, the starting file last, and every file after each file it imports unless the two are on a common import cycle; so in an acyclic schema this is a build order. Only the first call of Proto loads anything. If the first call fails, the walk fails with the same error. The client must keep the paths: one that keeps the *File values and compares them never ends if there is an import cycle anywhere below the starting file, because every call of Proto returns a new value.", "quantifier": "every import graph, every registry history without a panic of Proto, every starting path", "why_tests_cant": "import graphs of any size and shape; termination depends on the identity of what Proto returns", "anchors": ["internal/core/registry.go:Registry.Proto", "internal/core/ast_file.go:File.Imports", "internal/core/ast_import.go:Import.Path", "internal/core/visitor_demark.go:VisitImport"]}
{"id": "C84", "title": "What a failed import leaves behind stays behind", "statement": "If Registry.Proto meets an import of a file that is neither loaded nor readable in a file it is loading for the first time, then for the rest of the registry's life, whatever the program does, and even if the missing file appears and is loaded later, Proto for the importing path still returns the file from the registry, but nothing declared by the statements that follow the import is ever found by NodeByFullName under any name, and the NodeIndex of all of it is empty. Repairing the disk and asking again does not help; only a new registry does. For the file that was asked for: if its i-th statement is the first import that leads (through files that are not loaded and readable, other than the file itself) to a file that is neither loaded nor readable, Proto panics or never returns, and after the panic every declaration before the i-th statement is found by its fully qualified name, and those after it never are.", "quantifier": "every registry history before and after, every import graph, every missing file, every declaration after the import at every depth", "why_tests_cant": "all histories after the failure, unboundedly many later loads", "anchors": ["internal/core/registry.go:Registry.Proto", "internal/core/registry.go:demarkFile", "internal/core/visitor_demark.go:VisitImport", "internal/core/registry_types.go:NodeByFullName", "internal/core/registry_meta.go:NodeIndex"]}
{"id": "C85", "title": "A fully qualified name that is declared again belongs to the file loaded last", "statement": "Nothing is reported when two loaded files declare the same fully qualified name, as they do when the same file is loaded under two paths. When Proto returns a file, every name declared in a file which that call has added is afterwards, with NodeByFullName, the name of an element of one of the added files, whatever was declared before. The older declaration keeps its nodes and its NodeIndex, but is not found by it any more. Conversely, whatever a program does, the answer of NodeByFullName for a name stays with the same element or goes to an element of a file loaded meanwhile; it never goes to another element of an old file and is never lost.", "quantifier": "every registry history (names need not be unique), every later load, every name", "why_tests_cant": "all schemas with clashing names and all orders of loads", "anchors": ["internal/core/registry.go:Registry.Proto", "internal/core/visitor_demark.go:VisitMessage", "internal/core/registry_types.go:NodeByFullName", "internal/core/registry_meta.go:NodeIndex"]}
{"id": "C86", "title": "The types of two declarations are == exactly if they are the same type", "statement": "Take the types of any two declarations (MessageField.Type, for a repeated field the element type of it, OneOfBranch.Type, Method.Input, Method.Output, Map.Value), obtained at any two moments between which no file is loaded, by any program. They are == exactly if both declarations name the same scalar type or their type names, each in the scope of its declaration (Map.Value: in the root scope), denote the same declared name; how the names are written does not matter. The Repeated, OneOf and Map values that MessageField.Type gives for repeated fields, oneofs and maps are == exactly if they are the type of the same field, whatever the program does and loads before and in between. For the other types the restriction is needed: if a file is loaded in between, the comparison can fail, because the same name used twice in one message gives two nodes that are not == when the loaded file declares the name again.", "quantifier": "every registry history, every pair of declarations, every way of writing the names, every program in between", "why_tests_cant": "all pairs of declarations at all scopes and all interleaved programs; depends on sharing of nodes", "anchors": ["internal/core/ast_message.go:MessageField.Type", "internal/core/ast_service.go:Method.Input", "internal/core/ast_service.go:Method.Output", "internal/core/ast_oneof.go:OneOfBranch.Type", "internal/core/ast_map.go:Map.Value", "internal/core/ast_repeated.go:Repeated", "internal/core/registry_types.go:getTypeByName"]}
{"id": "C87", "title": "Going down by name leads where the full name leads", "statement": "Suppose no two loaded declarations share a full name, every package statement stands before the declarations of its file, and no call of Proto panicked. If NodeByFullName(q) is a message or a service and Message.Field, Message.Message, Message.Type or Service.Method for a name on it returns n, then NodeByFullName(q + \".\" + name) == n at any later time, whatever the program does and loads before, between and after (if the three conditions still hold). Values of enums and branches of oneofs stand beside their enum or oneof: if NodeByFullName(scope + \".\" + own) is an enum or a oneof field named own and Enum.Value or OneOf.Branch for a name on it returns n, then NodeByFullName(scope + \".\" + name) == n. At the top level, what File.Message, File.Enum, File.Type or File.Service gives for a name, unless it is an extend block, is what NodeByFullName gives for the name prefixed with the package of the file.", "quantifier": "every registry history, every declaration at every depth, every member name, every program run in between", "why_tests_cant": "all schemas, depths and interleaved programs; two independent ways of looking up must meet in the same node", "anchors": ["internal/core/registry_types.go:NodeByFullName", "internal/core/ast_message.go:Message.Field", "internal/core/ast_message.go:Message.Message", "internal/core/ast_message.go:Message.Type", "internal/core/ast_service.go:Service.Method", "internal/core/ast_enum.go:Enum.Value", "internal/core/ast_oneof.go:OneOf.Branch", "internal/core/ast_file.go:File.Message", "internal/core/ast_file.go:File.Package", "internal/core/visitor_demark.go:VisitMessage"]}
{"id": "C88", "title": "Going up removes the last component of the full name", "statement": "Under the conditions of C87, if NodeByFullName(q) is a node and NodeParent of it is m, at any later time and whatever the program does and loads in between, then q ends in a dot and the Name of the node, and the rest of q, the scope, is what m stands for: if m is a message that is no extend block, or a service, NodeByFullName(scope) == m; if m is a file, the scope is its package (empty without one, with a leading dot otherwise); if m is an enum or a oneof field, NodeByFullName(scope + \".\" + the Name of m) == m. So a client can go up by cutting the name or by NodeParent and finds the same nodes, except that enums, oneofs and extend blocks are no part of the name.", "quantifier": "every registry history, every full name at every depth, every program run in between", "why_tests_cant": "all schemas, depths and interleaved programs; two independent ways of going up must meet in the same node", "anchors": ["internal/core/registry_types.go:NodeParent", "internal/core/registry_types.go:NodeByFullName", "internal/core/ast_file.go:File.Package", "internal/core/visitor_demark.go:VisitMessage", "internal/core/visitor_demark.go:VisitEnum", "internal/core/visitor_demark.go:VisitOneof"]}

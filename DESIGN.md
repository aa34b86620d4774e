# protoast in Rocq: design

Everything is in `rocq/theories`.  The subject is `/repo/internal/core` (plus the thin
re-exports `protoast.go`, `past/past.go` and the error helpers).

## 1. How the code is modelled

* **State and effects** (`Registry.v`).  A `Registry` becomes a record (`registry`): the parsed
  ASTs (`heap`), the five Go maps (`protos`, `registry`, `scopes`, `cache`, `ftcache`) and an
  allocation counter for wrapper objects.  Every method is a function
  `registry -> outcome A * registry`; `outcome` is `Ret a`, `Panic msg` or `Diverge`
  (fuel exhausted).  *The state after a panic is kept*, because `defer`red map writes
  (`wrap`, `MessageField.Type`, `Pos`) run during panics and clients may recover.
* **AST of emicklei/proto** (`Ast.v`).  The parser is a dependency and is an oracle: reading a
  file gives an error or a list of element trees.  A tree node carries the Go struct's fields
  the code uses, its position, its comment and its children (`Elements`, or `Options` for
  fields).  A Go pointer to an AST struct is `(parse number, index path)`: pointer equality
  is structural, the `Parent` pointer is the path without its last index.
* **Wrapper objects** (`*Message`, `*MessageField`, ...) carry an allocation number: Go `==`
  on nodes is equality of those numbers (and of the dynamic type), `go_eq`.
* **File system.**  Every `Proto` call takes its own environment (resolver answers and file
  contents), so the file system may change arbitrarily between API calls.
* **Iterators** (`iter.Seq`) are higher-order: they take a consumer (`yield`) that is itself
  a registry computation, so loop bodies may call back into the registry, break or panic.
* **Client programs.**  `client m` (`Client.v`) is the inductive class of all computations built
  from API calls, sequencing, loops over iterators and `recover`; `client Queries` excludes
  `Registry.Proto`.  `reachable s`: `s` is what some client program makes of a new registry.
  `calm s`: the same, with no panicking `Proto` in the history.  "For every history" theorems
  quantify over `reachable`/`calm` states and `client` programs.

### File by file

| Go source | model |
|-----------|-------|
| `registry.go` | `Registry.v` (`proto_file`, `proto`, `new_registry` ...) |
| `visitor_demark.go` | `Registry.v` (`visit_*`, fuel = import depth) |
| `registry_name_resolver.go` | `Registry.v` (`resolve_name_raw`, on byte strings) |
| `registry_types.go` (wrap, getTypeByName, builtinType, NodeByFullName, NodeParent, NodeHierarchy, NodeFile, TypeName) | `Registry.v`, `Api.v` |
| `registry_meta.go` (NodeIndex, Options, OptionNamed, Pos, Comment, NodeDescription) | `Api.v`, `Options.v` |
| `registry_simple.go` (TypeIs*, GoPackage, GoPackageOption) | `Api.v`, `Options.v` |
| `ast_*.go` | `Api.v` (iterators, lookups, getters, Type, Key, Value, Input, Output) and `Options.v` (options and option values) |
| `path_resolvers.go` | `Resolvers.v`, with `filepath.Clean/Join/Split`, `sort.Strings`, `slices.Compact` in `GoBase.v` |
| `strconv`, `strings` functions used | `GoBase.v` |

Each definition cites the lines it models; simplifications are stated there.

### Where the specification words are

Statements use a vocabulary that is separate from the model's functions:
`Spec.v` (fully qualified names of the declarations of an AST, import paths),
`Observe.v` (loaded, available, element_of, represented_by, children, shows, containers, handed_out ...),
`Resolve.v` (found, unknown, denotes: protobuf scoping over component lists),
`TypeUse.v`, `OptionUse.v` (what an option name refers to), `Values.v` and `Numerals.v` (content of a
literal for a declared type, what is wrong with one: `fails`, `says`; decimal numerals), `Paths.v` (path components), `Same.v` (the same
answer, call, loop, program on two registries), and the heads of the `Thm*.v` files (`ThmSchema.v`:
is_loaded, loading, same_files; `ThmFiles.v`: just_loaded, same_place; `ThmMore.v`: references, may_mean, no_capture;
`ThmProgram.v`: service_at, service_findings, fine_service; `ThmMain.v`: the_services, compliant_service;
`ThmLint.v`: lint_loaded; `Hierarchy.v`: range_over, apart, taking),
`Threads.v` (goroutines as sequences of critical sections, schedules, the same goroutine),
`ThmQuick.v` (`option_line`, `message_text`: the output of the Quick Start program),
`Survey.v` (`declared_below`: what is declared inside a file), `Gather.v` (`uses`, `mentions`, `unusable`, `broken`: the type graph), `Deps.v` (`imports`, `dependency_order`, `acyclic`: the import graph),
`Language.v` (`valid_schema`, `language_type`: type names as the protobuf language resolves them), `LanguageOptions.v` (option names likewise),
`ThmErrors.v` (why a file cannot be had: `failure`, `annotates`, `anonymous`, `tried`),
`ThmPanics.v` (`type_label`, `stripped`: what panic texts show of a node),
`ThmNodeless.v` (elements without a node, repeated attempts).

## 2. Properties: what is modelled and how it is proved

| id | modelled by | how it is proved |
|----|-------------|------------------|
| C01 C12 C13 C19 C20 C21 | whole API, `client` (programs may keep the iterators they get, also those of `Options`, and range over them later and repeatedly) | extension preorder and invariant `Inv`, preserved by every API function, lifted to every client program by induction |
| C02 | loader with fuel on the import depth | the number of not yet loaded paths of the finite closure decreases at each nested import |
| C03 C08 | loader | invariant: heap and `protos` are inverse to each other; every `registry` entry is a declaration of that name |
| C04 C05 C06 C07 | loader, visitor | completeness of the visitor by induction on fuel and tree against the separate `fqn`; counterexample after a recovered panic |
| C09 C10 C11 | `protoFile`, `Proto` | case analysis against a relational spec of resolver precedence; C10: every broken import chain blows up, with C02 it panics |
| C14 C15 | `resolveNameRaw` on byte strings | induction on the number of scope components, spec on component lists |
| C16 C17 C18 C22 | `getTypeByName`, `Type`, `Input`, `Output` | case analysis plus C14; counterexamples by computation |
| C23 | `Proto`, `NodeFile` | C19 for files; allocation freshness for the File of `Proto` |
| C24 C25 C26 C27 | `NodeParent`, `NodeHierarchy`, `NodeFile` | induction on the index path; classification of everything handed out |
| C28 C29 C30 C31 C32 C59 | iterators and lookups | one generic iteration lemma, instantiated for every iterator; C31: each run over Everything marks the first unmarked element without a node (`ThmNodeless.v`), induction on their number |
| C33-C37 | `Options`, `OptionNamed`, `Everything`, `Method.Options`, `newOption` | iteration lemma plus C14; counterexamples by computation |
| C38-C43 | `buildFromLiteral`, `String` methods, `strconv.ParseInt/ParseUint/ParseBool/Itoa` | induction on literals and on decimal digit strings |
| C44 C45 | `GoPackageOption`, `GoPackage` | string induction, iteration lemma |
| C46-C50, C52, C53 | direct | case analysis |
| C51 | `Pos` with its deferred function | case analysis plus C25; literals by induction |
| C60-C63 | accessors | the heap cell of an element never changes (extension preorder) |
| C64 | whole API, `program` | a total-correctness predicate `fin` closed under sequencing, iteration and recovery; C02 for loads |
| C65 C66 C67 C68 | loader, `NewRegistry` | the set of loaded paths stays within the import closure (induction on fuel and element lists); closure does not depend on the order; no panic if every import can be read |
| C69 | internal/readme/main.go as a client program (`Readme.v`); what it prints is a list of findings, turned into text and exit code at the end (`report`) | invariant of the two loops: the remembered field types agree with name resolution in the registry at the start; node identity turns == into equality of declarations; for the whole program: a load depends only on the schema loaded so far and not on the fuel (`tracks`), and files that capture no reference leave every finding as it is, so the findings made while later files are still missing are those with all files in view; `built` (C54-C57) gives the resolvers; the failing runs (`ThmMainFails.v`) unfold the program up to the failure |
| C70 | the query API (no new definitions); `same_answer` (`Same.v`) compares answers up to object identities | simulation between two registries with the same schema, each with its own caches (`Stable.v`): wrap is the only primitive that reads the node cache; an invariant of query programs says what the type cache of fields can contain |
| C71 | the query API; `same_program` (`Same.v`) is the least relation that relates a program to itself on corresponding arguments: calls, loops with related bodies, sequencing with related continuations; it carries a one-to-one relation between the node identities seen so far, so that programs may compare nodes with == but not otherwise look at identities | the same simulation with pointers related by "same place of the same file"; the name tables correspond by C05/C08 (unique names); invariant on both type caches: every entry is what a fresh computation would give; node identities correspond because what the API hands out is the entry of the node cache (Kripke-style: the correspondence grows with the caches); `ThmLint.v` applies it to the README linter |
| C72 | the query API; `references`, `may_mean`, `no_capture` (`ThmMore.v`) say when a declaration could be meant by a reference | the same simulation, weakened so that the second registry may know more names and files; a reference resolves alike because every candidate the scope walk tries is a name it `may_mean`; for loads and queries in any order (`ThmLater.v`) an invariant of all programs says that field types remembered for the first files are what a computation on the first registry gives |
| C73 | the closure returned by NodeHierarchy with the variable it captures and assigns to (`Hierarchy.v`: `range_over`, the loop body may use the iterator itself) | first range = `node_hierarchy` by induction on fuel; a range that breaks at the k-th element by induction on the depth of the element; two ranges from the stability of nodes over any client program; programs with kept hierarchy iterators are clients by induction on fuel |
| C74 | goroutines that use a registry under a lock of their own (`Threads.v`); the code has no concurrency, so a goroutine is modelled as a sequence of critical sections, each a program of queries; memory without a lock is not modelled, except that `C74_no_lock_refuted` splits one lookup into the read of the cache and the write of it | the simulation of C71 between the registry of a goroutine running alone and the shared one; sections of the others keep it (`others_keep`), own sections are simulated (`run_program`); induction on the schedule; with loads (`ThmLater.v`): the registry of the goroutine alone is compared with one that grows, the invariant on its type cache speaks about the fields of the first files only |
| C75 | error values as chains (`error` in `GoBase.v`: errors.New, errors of other packages with the sentinels they match, fmt.Errorf with %w), panic values that are errors; errors.Is | `failure` says why a file cannot be had; case analysis of `protoFile`; a panic while visiting comes from an import (`visit_list_panics`), induction on the import depth gives the chain to the culprit |
| C76 | README.md:46-94 as a client program (`Quick.v`); the output is one string, what was printed before a panic is not kept | `option_line`, `message_text` say what is printed from the schema alone; induction over the elements of the file: picking an option either gives the option about the statement or panics because its name stands for no field (`option_pick`), its value is what the literal denotes (`build_reads`), its text is determined by that (`render_prints`); queries leave schema and answers alone (`quiet`) |
| C77 | the panic values of `build` are the errors of the code (`PError`), with strconv's `NumError` (`num_error`, `parse_uint_fault`, `atoi_fault` in `GoBase.v`); the error of ParseFloat is a parameter | `fails` (Values.v) says what is wrong first with a literal, `says` which error says so; by induction on the literal `build` returns a content the literal `reads` as, or panics with what `says` a complaint it `fails` with (`build_spec`); `fails` is functional and excludes `reads` (`fails_fun`, `fails_none`) |
| C78 | the walk as a client program over the modelled iterators (`Survey.v`), the recursion bounded by a depth | `declared_below` (Survey.v) says what is declared inside a file from the elements alone; by induction on the depth the program lists `decls`, one node per element (`visit_ok`), which has no duplicates (positions of siblings do not overlap) and contains exactly what is declared below |
| C79 | the walk as a client program (`Gather.v`): MessageField.Type with its cache, Map.Value, OneOf.Branches, OneOfBranch.Type, comparison of nodes by kind and address; the recursion bounded by fuel | `mentions` (Gather.v) is the type graph stated by `in_scope`, `denotes` and `found`; a Hoare-style judgement `ends` (returns with a postcondition / panics only for a reason / never diverges) over all registries between the start and the current one, with the invariant that the type cache answers for the starting registry; the depth-first invariant `step` (new nodes are reachable, closed under `mentions` with what was there, not broken) by induction on the fuel, which a list of all elements bounds |
| C80 | nothing new: the lookup of C13/C14 against an independent definition of the language's rules | `Language.v` states protoc's LookupSymbol rules inductively over the declarations of the loaded files (`declared`, `type_named`, `aggregate_named`, `language_type`); proved by showing that what encloses a declared name is a package, message or service (`declared_inside`), that nothing is declared below a field, and by `asks_spec`; two counterexamples show that the deviations are real |
| C81 | the panic values of all calls (`conversion`, `nil_dereference`, `go_node`, `go_proto`) | own tables of the Go type names (`exported`, `parser_name`), `stripped` takes off Repeated; case analysis, induction on Repeated, for Pos the walk to the file of C25 |
| C82 | nothing new: the lookup of C33-C35 against the language's rules | `LanguageOptions.v` states protoc's lookup of option names (`language_symbol`, `extension_of`, `option_meaning`, `hidden`); the language's search and the library's differ in the annotated element's own scope only (`symbol_denotes`); three counterexamples for the deviations |
| C83 | the walk along the imports as a client program (`Deps.v`), and the same walk comparing *File values; recursion bounded by fuel | depth first search: invariant on visited, finished and open files (`ordered`, `gray`, `went`), measure: loaded files not visited; the other walk: a path into a cycle is never left, since the address returned by Proto is fresh |
| C84 | Proto, NodeByFullName, NodeIndex after a load that stopped at an unreadable import | relation between registries (`named`): an element gets a name or a scope only in a file loaded by this call, and only before the first unreadable import of its file; by induction on trees, fuel and client programs; for the later history the same relation with nothing unreadable and the current file count; for the requested file the visit is followed statement by statement (`Statements.v`): imports before the i-th do not panic (`import_panics`), the i-th does not return, since everything it leads to would be loaded (`leads_loaded`) |
| C85 | Proto, NodeByFullName, NodeIndex with names that are not unique | the loader never reads the table of names (`blind`), so the same load on a registry without names makes the same entries, which are those of the new files (`new_names`), and they go before the old ones; the converse by the relation `named` of C84 |
| C86 | MessageField.Type, OneOfBranch.Type, Method.Input/Output, Map.Value of two declarations, == | the two lookups by `asks_spec`, the names unchanged between them (`quiet`), one node per element (C20); for Repeated, OneOf and Map values the invariant `own_types`: in the table of field types two keys never hold the same such value; a world with a redeclared name refutes the statement with a load in between |
| C87 | Message.Field/Message/Type, Service.Method, Enum.Value, OneOf.Branch, File.Message/Enum/Type/Service against NodeByFullName | the lookup gives the cached node of a child with the name (`child_found`); its full name from that of the parent by `scope_at_cons`; unique names give the pointer, the cache the node (`named_child`) |
| C88 | NodeParent against NodeByFullName, Name, File.Package | the pointer of a named node is below a container (`visible`), the scope of a child from its parent by `scope_at_cons`; the parent node is the cached one (`wrap_ret`), found under its own name by `named_child` |
| C54-C58 | `PathResolversBuilder`, path functions | sorting and compaction lemmas; induction on path components |

Every property can be expressed in the model; none is `not_applicable`.

Where the code violates what a user would expect, the property is worded as what holds, the
deviation is part of the property, and a theorem `..._refuted` (or `..._panics`) proves the
deviation, for a concrete run of the model or in general.

Beside each theorem stands an `..._example` that shows a concrete, non-trivial case meeting
its hypotheses (most use `demo_world`, the registry after loading a transcription of
`/repo/testdata/data.proto` and `meta.proto`).

## 3. Trusted base

* Coq 8.16.1's kernel (with `vm_compute`, used in the examples and counterexamples).
* `Audit.v` collects all the theorems of `MANIFEST.json` in one term and runs
  `Print Assumptions`: *Closed under the global context*, i.e. no axiom at all, neither of
  ours nor of a library, for any theorem.  (`vcheck`/`coqchk` list, for the loaded libraries,
  axioms of `Coq.ssr.ssrunder` - `Under_rel` and its companions, module type fields -
  which no theorem depends on.)
* Libraries: Coq's standard library and std++.  No plugin, no functor, no module type of ours.
* The model: that the definitions of `Registry.v`, `Api.v`, `Options.v`, `Resolvers.v`, `Client.v`
  mean what the cited Go code does.  They were written by reading; no translation tool was
  used, and the Go code was never run.

### Assumed about things outside /repo

* **emicklei/proto** (`env_ok`, `parser_output`): the elements nest as its grammar allows
  (`allowed` in `Ast.v`), every element's `Parent` is the container it is in (also for options
  inside field brackets), and every element's position carries the file name given to
  `parser.Filename`.  Literal positions are *not* assumed to.  Visitor dispatch (`Accept`) goes to
  the method of the element's type.
* **os, exec**: `os.Stat`, `os.ReadFile`, `exec.LookPath` are arbitrary functions; C54-C57 assume that
  the empty path does not exist (`unix`).  No concurrency: the Registry's maps are not
  synchronised, so it cannot be used concurrently without a lock, and the model is sequential
  (C74 schedules critical sections; `C74_no_lock_refuted` shows what goes wrong without a lock).
* **strconv.ParseFloat and float formatting** are parameters (`floatlib`) of the theorems
  on values: the theorems hold for all of them.
* **map iteration order** is never observed by the modelled code.

### Not modelled

* The parser itself; errors.As.  (Panic values are modelled: the code's errors and strings, the run-time errors of type
  assertions and nil dereferences with their texts.)
  `%q` of bytes beyond ASCII in the root a resolver's `String()` shows, Windows paths.
* `internal/playground` (a program using the library; it calls methods the API does not have), tests; of `internal/readme` what was printed
  before a panic and the text of the error "service not found" (it prints a File with %q).
* Memory addresses: identities are allocation numbers, never reused, as under Go's garbage
  collector for live objects.
* Stack overflow and memory exhaustion.

## 4. Testing the theorems

`seeded/LOG.jsonl` records wrong programs: edits of the model as realistic bugs would make
them, the theorems whose proofs then fail, and the theorems that were tightened.
`tools/seed.py` applies one to a scratch copy and rebuilds.

## 5. Housekeeping

`tools/props.py` writes `properties.jsonl`, `tools/audit.py` writes `theories/Audit.v`,
`tools/manifest.py` writes `MANIFEST.json` from the theorems named `Cnn_...`.

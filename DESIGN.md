# Formal model of buypal/oapi-go in Rocq (Coq 8.16.1)

## Layout

`rocq/theories/` (logical name `Verif`):

| file | contents |
|---|---|
| `GoStr.v`, `GoStrFacts.v` | Go `strings`/`strconv` primitives on byte strings (Split, Join, Replace, HasPrefix, Trim, Atoi...) and their lemmas |
| `Json.v`, `JsonFacts.v` | dynamic values `interface{}` of a container: JSON trees, objects as key-sorted association lists |
| `Gabs.v`, `GabsFacts.v` | the gabs v2.6.0 operations the repo calls: Search/Path/Exists/Set/SetP/Flatten |
| `Container.v`, ... | `internal/container`: clone, mmap, Merge, Containers.Sort/Merge, ExtractKey, SliceToDotPath, sorting marshaller |
| `Url.v`, `Pointer.v` | the part of `net/url` that pointers use; `internal/pointer` |
| `Slices.v` | Go slice headers over a heap of backing arrays (C04) |
| `Resolver.v` | `internal/oapi/resolver` with explicit iteration-order oracle |
| `Root.v` | `internal/oapi/oapi.go`: MergeWithRoot, Paths, SetPathsDefaults |
| `Regex.v`, `Route.v`, `RouteCache.v` | the regexp subset routes use; `internal/route`; its mutex-protected cache as a transition system |
| `ScanFn.v` | the resolution closure of `internal/oapi/scan/scan.go` |
| `Tag.v`, `TagFacts.v`, `TagText.v`, `TagQuote.v`, `TagLit.v`, `Spec_Tag.v`, `Spec_TagQuote.v` | `tag/tag.go` + structtag / tagparser |
| `Types.v`, `TypesFacts.v`, `WalkFacts.v`, `CollectFacts.v`, `CollectApi.v`, `DenoteFacts.v`, `SimpleChain.v`, `FieldFacts.v`, `FieldOutcome.v`, `SchemaFacts.v`, `SchemaOutcome.v`, `SchemaRefs.v`, `SchemaShape.v` | `internal/oapi/scan/types` over a model of go/types: declarations, underlying types, identity. Not modelled: type parameters, non-ASCII exported names, packages of unexported field names |
| `Pkgs.v`, `PkgErr.v`, `Cmds.v`, `Specs.v` | `internal/pkgutil`, `scan/cmds`, `scan/specs` |
| `Config.v`, `Cli.v` | `internal/oapi/config`, `cmd/oapi`, `oapi.go` |
| `SpecUtil.v` | `internal/oapi/spec` helpers |
| `Builders.v`, `SpecCtors.v`, `SpecValues.v` | `internal/oapi/spec/schema_util.go` on a heap; parameter and security scheme constructors; `any.go` decoding in place |
| `Shape.v` | the struct types of `internal/oapi/spec` and the configuration, and encoding/json on them |
| `ConfigScan.v` | `cmd/oapi/scan.go`: the options made of the configuration |
| `Spec_*.v` | small independent specifications used in theorem statements |
| `P_*.v` | property theorems only: each closed by `exact`, followed by `Print Assumptions`, with an `Example` showing the hypotheses are met |

Model files contain no proofs (beyond what a definition needs); proofs are in `*Facts.v`; property files contain only statements.

## Conventions

* Go strings are byte strings: Coq `string` (list of 8-bit `ascii`).
* A Go `map[string]interface{}` is an association list with strictly increasing keys (canonical representation, so Leibniz equality is map equality). *Iteration order* is never taken from this order: wherever the code ranges over a map, the model takes the order from an arbitrary oracle and theorems quantify over it.
* `error` returns are values (`Err`), run-time panics are a separate outcome (`Panic`) so that "returns an error" and "crashes" are different theorems.
* Loops that are not structurally recursive use fuel with a distinct `OutOfFuel` outcome; termination theorems show the outcome is unreachable.
* Where the code violates the property a user would expect, the theorem is named `..._refuted` (with a witness) and the strongest true statement is proved beside it.

## Trusted base

* Coq 8.16.1 kernel. No axioms of our own; see `Print Assumptions` output under each theorem (target: "Closed under the global context" everywhere).
* `vcheck` also lists seven `Coq.ssr.ssrunder.*` axioms (module-type fields of the standard library's ssreflect files, loaded transitively by stdlib tactics); no theorem here depends on them: every `Print Assumptions` prints "Closed under the global context".
* Third-party and standard-library code is not in the sandbox; it is modelled from its documented/known behaviour at the version in go.mod: gabs v2.6.0, structtag v1.2.0, tagparser v0.1.2, net/url, strings, strconv, encoding/json (as "clone"), regexp (the fragment used), sort.
* The tie between model and code is by reading: every definition cites the file and lines it models.

## What is modelled and what is not

Per source file of /repo (tests and `.examples` excepted). "All" means every function with an observable effect; trivial getters (`Len`, `Get`, `Data`, `FilePath`, `GetCmd`, `GetArgs`, `Entity() Entity` methods, `String()` methods only used for logs) are inlined where their callers are modelled.

| file | modelled | in | not modelled |
|---|---|---|---|
| `oapi.go` | `Scan`, options, `scan`, `Formatter`s JSON / YAML selection, Go file format | `Scan.v`, `Root.v`, `JsonText.v`, `ConfigScan.v`, `ScanFn.v` | YAML text; log lines |
| `temp.go` | the template with its raw string | `JsonText.v` | `go/format` (identity on this template) |
| `cmd/oapi/main.go`, `config.go`, `scan.go` | command line, config search, output file, exit code | `Cli.v`, `Config.v`, `Path.v`, `ConfigScan.v` | the flag parser (kingpin) and its help; logrus formatting |
| `internal/container/container.go` | New, Make, ReadFile, Path, Search, SetP, Exists(P), Flatten, ChildrenMap, IsNil, Clone, ReadDir, Containers.Sort/Merge | `Container.v`, `Gabs.v`, `HeapCont.v`, `Specs.v` | `Print` (debug log), `MarshalYAML` text |
| `internal/container/merge.go`, `utils.go` | all | `Container.v`, `Yaml.v` | |
| `internal/container/sort.go` | marshalling order, JSON text | `Container.v`, `JsonText.v` | YAML text |
| `internal/logging/logging.go` | ParseLevel, level test used by the CLI | `SpecUtil.v`, `Cli.v` | the sink |
| `internal/oapi/config/config.go` | all | `Config.v`, `Shape.v`, `ConfigScan.v` | |
| `internal/oapi/oapi.go` | all | `Root.v` | |
| `internal/oapi/resolver/*.go` | all | `Resolver.v` | |
| `internal/oapi/scan/scan.go`, `scan/cmds/*.go`, `scan/specs/scan.go` | all | `ScanFn.v`, `Cmds.v`, `Specs.v`, `Scan.v` | progress logs |
| `internal/oapi/scan/types/*.go` | all | `Types.v` | `pointmap.log`; go/types generics (Go 1.14 has none); channel / func / signature types only as types the code rejects |
| `internal/oapi/spec/*.go` | struct shapes, JSON of every type, Entity keys, builders and constructors of schemas, parameters, headers, XML, request bodies, responses, servers, security schemes, path items | `Shape.v`, `SchemaJson.v`, `AnyJson.v`, `SpecUtil.v`, `Builders.v`, `SpecCtors.v`, `Resolver.v` | Go-level aliasing outside `schema_util.go` and `any.go` |
| `internal/pkgutil/*.go` | package graph walk, directories, errors and their text | `Pkgs.v`, `PkgErr.v`, `Path.v` | `packages.Load` itself (its result is an input) |
| `internal/pointer/*.go` | all | `Pointer.v`, `Url.v`, `AnyJson.v`, `Slices.v` | `RawFragment` of URLs (never printed) |
| `internal/route/route.go` | all | `Route.v`, `Regex.v`, `RouteCache.v` | regexp syntax no route pattern can produce |
| `tag/tag.go` | all, with structtag and tagparser | `Tag.v` | surrogate halves in `\u` escapes are errors (as since Go 1.18) |

Simplifications that apply throughout: strings are valid UTF-8 and, where case or printability matters, ASCII; a typed nil map is distinguished from an empty one only in `SpecUtil.v`, `AnyJson.v`, `Builders.v`, `Shape.v`; +0 and -0 are one number; JSON nesting limits are ignored; directory names contain no glob metacharacters; slice append in `HeapCont.v` always allocates (`Builders.v` models append in place); in `Shape.v` of two members of one object equal up to case the last counts (theorems exclude that case by `unambiguous`).

## Plan per property

| property | modelled by | proof |
|---|---|---|
| C01-C03, C05 | `Pointer.v` fragments over byte strings | induction on strings/tokens; Replace as char-wise map |
| C04 | `Slices.v` heap of arrays, append semantics | invariant over derivation sequences; refutation by computation |
| C06, C07 | `Url.v`, `Pointer.v` | string lemmas on first '#', first ':' ... |
| C08-C12 | `Container.v` Merge loop over root+path as coded; `Spec_Merge.v` key-wise relation | structural induction on source; lookups; permutation invariance |
| C13 | `Specs.v` | corollary of the merge characterisation |
| C14, C15 | `Container.v` clone/mmap with numbers int/float/non-finite | induction on trees |
| C16 | `Gabs.v` set/search | induction on path |
| C17, C18 | flatten / dot paths | induction on trees; join/split inverse |
| C19 | sorting marshaller with arbitrary order and arbitrary correct sort | Permutation + sortedness |
| C20 | `JsonText.v` byte-level JSON writer, reader, compactor, indenter, %q | relation `lay` (text is a layout of a document), induction on trees, per-byte facts over all 256 bytes |
| C21 | `JsonText.v` template, `Spec_Go.v` raw string lexer | which bytes occur in the text (`JsonChars.v`) |
| C22 | `HeapCont.v`, `HeapMmap.v` (maps and slices as shared cells; programs of Make, Clone, SetP, Merge and caller writes) | representation with footprints; simulation of the value model |
| C23-C28 | `Resolver.v`, oracle for order | invariants over the loop; fuel induction; spec function `expand` |
| C29, C71 | `SpecUtil.v`/`Resolver.v` | case analysis + string lemmas |
| C30 | `ScanFn.v` | case analysis |
| C67, C76, C78 | `Scan.v`: the whole of Scan, composed from the models of its steps; `Spec_Scan.v` | invariants carried through the pipeline (`ScanFacts.v`, `ScanInv.v`, `ScanRefs.v`) |
| C77, C83 | `Scan.v`; `Spec_Kept.v` (visited packages, specification files, kept values) | leaf-wise invariants through merge, root merge, resolve and defaults (`ScanKept*.v`) |
| C84 | `Resolver.v`; `Spec_Resolve.v` (`expandx`, `chain`) | substitution at locations for nested containers, frame for r.con (`ResolverExpandX.v`, `ResolverAt.v`) |
| C85 | `Scan.v` (whole pipeline); `Spec_Kept.v` (`file_ref_at`, `shows_struct`, ...) | Scan split into stages with what each adds (`ScanStages.v`), each stage's frame and effect (`ScanAdds.v`, `ScanStruct.v`) |
| C86 | `Builders.v` (heap of schemas, slices with capacity, maps); `Spec_Build.v` (`view`, `after`, `vrun`, `sharing`) | one call: case analysis over all calls with frame lemmas for append and maps (`BuildFacts.v`); programs: invariant that nothing is shared (`BuildRun.v`) |
| C87 | `SpecCtors.v` (`any_decode`) on the same slices | append lemma of `BuildFacts.v` |
| C88 | `SpecCtors.v` (`param`, `new_scheme`) | induction over the chain of calls |
| C89 | `Shape.v` (struct tables from the Go tags, `decode`, `encode`) | tables checked against literal ones in `Spec_Shape.v`; induction over the JSON value, and over the location found |
| C90 | `ConfigScan.v` (`cli_options`, `cli_scan`) over Config.v, Shape.v, Scan.v | the written root, overrides and operations are canonical (`nice_out`), so the hypotheses of C85 follow from ones about the configuration document; C89 then says what they contain |
| C91 | `Scan.v` as a whole; `Spec_Ends.v` (what is in order) | `ScanDepth.v`: every stage is monotone in its depth; `ScanEnds.v`: each stage returns for some depth, by the termination theorems of C27-C29, C50, C57 and a bound on the texts references can take (closure under go types and overrides) |
| C92 | `SpecValues.v` on the struct values of `Shape.v` | assignments to fields as function update (`ValuesFacts.v`); induction over the chain of calls |
| C93 | `Resolver.v` | termination from `resolve_ends`; separately that no step returns an error: places of exported entities stay open (`room`), references stay apart from them (`ResolverOk.v`) |
| C94 | `Scan.v` and below | termination from C91; separately that no stage returns an error: commands, files (any order of merging, `files_scanned`), root sections, schemas (`SchemaNeat.v`), resolution (C93), defaults (`ScanOk.v`) |
| C95 | `Scan.v` and below | both runs resolve the same composed document (C94's stages) with equal exports and equal schemas (`ScanSame2.v`: pointers are determined by their texts, conversion by the nearest locations), agree by C84 (`ScanSame.v`), and get the same defaults (`ScanSame3.v`); assembled in `ScanSame4.v` |
| C96 | `Resolver.v` | which components exist: an invariant over the nested iterations (`ResolverReach.v`): a component once written stays the outcome of some chain of references, and every chain of the document is followed until it meets itself |
| C97 | `Resolver.v` | the expansion of an exported entity does not depend on the path it was met on (`ResolverSame.v`: cut references on a cycle are all to exported entities, which are replaced by the same local reference either way); then C84 and C96 give equality at every location, hence equality |
| C98 | `Scan.v` and below | as C95, with C97 instead of C84: the references of a schema are to the nearest locations of the types it refers to (`ScanSame5.v`), so cycles of the resolution function are cycles of types and overrides |
| C99 | `Cli.v`, `ConfigScan.v`, `JsonText.v` | C98 for the options of the configuration, then C68 for the run and C19 (one order of members) / C20 (reads back) for the text |
| C100 | `Scan.v` (all stages) | origins listed in `Spec_Origin.v`; backwards through the stages of `ScanStages.v`: default operations, resolver frame, root merge, files (`ScanOrigin.v`) |
| C101 | `Scan.v`, `Pkgs.v`, `Specs.v` | allowed differences listed in `Spec_Unseen.v`; congruence of the traversal in what is reachable, and of the two passes in what they look up (`ScanUnseen.v`) |
| C102 | `Url.v`, `Pointer.v` | printing a parsed URL and parsing it again (`UrlText.v`): escapes, user information, hosts, ports, IPv6 addresses and their zones, schemes, queries, paths; case analysis of the parser |
| C103 | `Url.v`, `Pointer.v` | grammar in `Spec_Url.v`, both directions in `UrlGrammar.v` |
| C104 | `Types.v`, `Scan.v` | invariant: the map of types holds only types whose declarations agree (`UnrefFacts.v`); references in `Spec_Unref.v` |
| C105 | `Resolver.v`, `Scan.v` | two runs of the iterator side by side, induction on the depth (`UnneededFacts.v`); `asked` from `Spec_ResolveOk.v` |
| C106 | `Shape.v` | induction on the document read, writing and reading side by side; doubles have one canonical form (`ShapeAgain.v`); spec in `Spec_Again.v` |
| C107 | `Regex.v`, `Route.v` | the compiler follows the grammar, by induction on the expression (`TailFacts.v`); grammar and meaning in `Spec_Tail.v` |
| C79, C80 | `SchemaJson.v` | induction on schemas |
| C31-C36 | `Root.v` | via merge characterisation |
| C37-C40 | `Route.v` | regex denotation; state machine for the cache |
| C41-C46 | `Tag.v` | case analysis over option maps |
| C47-C57 | `Types.v` | fuel = number of types; simple-path argument; invariants |
| C58, C59 | `Pkgs.v`, `PkgErr.v` (error text) | DFS invariants; split/join of lines |
| C60-C63 | `Cmds.v`, `Specs.v` | string case analysis, loop invariants |
| C64-C66 | `Config.v`; `Spec_Config.v`, `Spec_Path.v` | case analysis; leaf-wise characterisation of the default merge |
| C68 | `Cli.v`: all worlds a run passes through | invariant over the list of worlds |
| C74, C75 | `Path.v` over path elements; `Spec_Path.v` walks in a tree | induction on elements; stack invariant of Clean |
| C69-C73 | `SpecUtil.v`, `AnyJson.v` (server and response helpers, log levels, union types, callbacks, encoding/json compaction) | induction; layouts of the JSON grammar |
| C81, C82 | `AnyJson.v`, `JsonText.v` (Pointer JSON methods, strconv.Unquote, JSON reader) | induction over string literals and layouts |

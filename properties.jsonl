{"id": "C01", "title": "Fragment text round-trips", "statement": "For every fragment f (any list of tokens, each any byte string, including '/', '~', '~0', '~1' and the empty token), NewFragment(f.String()) succeeds and returns exactly f; hence two different fragments never print the same text.", "quantifier": "all token lists, all byte strings", "why_tests_cant": "escaping interacts with arbitrary token contents; tests sample one token", "anchors": ["internal/pointer/fragment.go: NewFragment, Fragment.String, parseFragment, escapeToken, unescapeToken"]}
{"id": "C02", "title": "Which fragment texts are accepted and when printing gives the text back", "statement": "NewFragment accepts exactly the empty text and texts beginning with '/'. For every accepted text s, printing the parsed fragment gives s back exactly when every '~' in s is followed by '0' or '1'; printing and re-parsing any accepted text never changes the parsed fragment.", "quantifier": "all byte strings", "why_tests_cant": "the set of non-canonical texts is infinite", "anchors": ["internal/pointer/fragment.go: parseFragment, Fragment.String"]}
{"id": "C03", "title": "Descendant extends a fragment by the parsed path", "statement": "f.Descendant(path) never fails; if f is the one-empty-token fragment (which prints as '/') the result is exactly the tokens of path, otherwise the result is f followed by the tokens of path (path read with a leading '/' added when it has none), so f is a prefix of the result. Head is the first token and Last the last one, if there is any (so is Tail, documented as everything after the head).", "quantifier": "all fragments and all path strings", "why_tests_cant": "unbounded token contents", "anchors": ["internal/pointer/fragment.go: Descendant, RawDescendant, Head, Tail, Last, IsEmpty"]}
{"id": "C04", "title": "Derived fragments may share storage", "statement": "A fragment whose backing array is full (in particular any result of Clone, or any freshly parsed fragment) can be extended by Descendant any number of times and every previously derived fragment keeps its value. A fragment with spare capacity (for instance the one NewPointer creates) does not have this property: deriving a second descendant can change the first one.", "quantifier": "all slice heaps, all derivation sequences", "why_tests_cant": "aliasing depends on capacity history, not on values", "anchors": ["internal/pointer/fragment.go: Descendant, RawDescendant, Clone", "internal/pointer/pointer.go: NewPointer"]}
{"id": "C05", "title": "Replace changes one token or fails", "statement": "f.Replace(n, e) returns f with exactly token n replaced when 0 <= n < len(f), leaves f itself unchanged, returns an error when n < 0 or n > len(f), and panics (instead of returning the documented error) when n = len(f).", "quantifier": "all fragments, integers, tokens", "why_tests_cant": "boundary index over all lengths", "anchors": ["internal/pointer/fragment.go: Replace"]}
{"id": "C06", "title": "Pointer text identifies a Go pointer", "statement": "For every Go package path made of ordinary import-path characters and every fragment whose tokens contain no '%', the pointer prints as 'go://<pkg>#<fragment text>' and parsing that text gives back a pointer with the same scheme, package path and fragment; therefore two such pointers print equal text only if they are the same location. A token containing '%' breaks this.", "quantifier": "all package paths over the import-path alphabet, all token lists", "why_tests_cant": "percent-decoding and URL splitting over unbounded strings", "anchors": ["internal/pointer/pointer.go: Parse, NewGoPointer, Pointer.String, PkgPath, IsExternal, Clone"]}
{"id": "C07", "title": "Pointer sets merge right-biased", "statement": "Pointers.Merge returns a map whose value at each key is the right operand's when present, else the left operand's; neither operand is changed; NewPointers maps every listed pointer under its own text.", "quantifier": "all pointer maps", "why_tests_cant": "unbounded maps", "anchors": ["internal/pointer/pointer.go: Pointers.Merge, NewPointers"]}
{"id": "C08", "title": "Merge computes the key-wise merge", "statement": "Merging source object s into destination object d with a collision rule yields, when it succeeds, exactly the object that at every key holds: d's value if only d has the key, s's value if only s has it, the recursive merge if both hold objects, and otherwise the collision rule's choice. Merge fails exactly when the rule rejects some such collision. Destination keys not in the source are untouched.", "quantifier": "all JSON objects of any depth, all three collision rules (and any other rule)", "why_tests_cant": "unbounded trees", "anchors": ["internal/container/merge.go: Container.Merge, MergeStrict, MergeDefault, MergeOverride"]}
{"id": "C09", "title": "Merge does not depend on map iteration order", "statement": "For every source object, every order in which the runtime happens to iterate its maps (at every nesting level) gives the same success/failure and the same merged document.", "quantifier": "all iteration orders of all maps", "why_tests_cant": "Go randomises map iteration; a test sees one order per run", "anchors": ["internal/container/merge.go: Container.Merge"]}
{"id": "C10", "title": "Default and override merging laws", "statement": "MergeDefault and MergeOverride never fail on objects; every leaf location present in the destination keeps its value under MergeDefault and every leaf location present in the source wins under MergeOverride; merging a document into itself changes nothing; default-merging s into d equals override-merging d into s.", "quantifier": "all pairs of JSON objects", "why_tests_cant": "unbounded trees", "anchors": ["internal/container/merge.go: MergeDefault, MergeOverride"]}
{"id": "C11", "title": "Strict merging preserves both documents or fails", "statement": "MergeStrict succeeds exactly when no location is a non-(object,object) collision; on success every leaf of both inputs is present unchanged in the result and every leaf of the result comes from one of them; the operation is commutative; a collision of equal values still fails.", "quantifier": "all pairs of JSON objects", "why_tests_cant": "unbounded trees", "anchors": ["internal/container/merge.go: MergeStrict"]}
{"id": "C12", "title": "Merging a list of specs is independent of discovery order", "statement": "Containers.Merge with MergeStrict gives the same success/failure and the same document for every permutation of the list of containers (so sorting by file path does not change the result).", "quantifier": "all lists of documents and all permutations", "why_tests_cant": "n! orders", "anchors": ["internal/container/container.go: Containers.Merge, Containers.Sort", "internal/oapi/scan/specs/scan.go: Scanner.Merge"]}
{"id": "C13", "title": "Two discovered spec files can never be merged", "statement": "The specs scanner keeps only documents that have an 'openapi' key and merges them with MergeStrict; whenever two or more documents with a non-object 'openapi' value have been collected, the merge fails - even if all of them agree - so a scan that finds two spec files always returns an error.", "quantifier": "all lists of two or more spec documents", "why_tests_cant": "must hold for every document content", "anchors": ["internal/oapi/scan/specs/scan.go: Scan, Merge", "internal/container/merge.go: MergeStrict", "doc.go: Merging specifications"]}
{"id": "C14", "title": "Cloning preserves everything except number representation", "statement": "Cloning a document (Make, Clone, SetP, Merge all clone) keeps every key, string, boolean, null and array position; every number becomes the nearest float64, so integers of magnitude at most 2^53 keep their value while 2^53+1 does not; cloning a clone changes nothing; a document containing NaN or an infinity does not clone: Make and SetP return an error, and Clone silently returns a null document (so Merge of it silently does nothing).", "quantifier": "all documents", "why_tests_cant": "unbounded trees and integers", "anchors": ["internal/container/utils.go: clone", "internal/container/container.go: Make, Clone, SetP", "internal/container/merge.go: Merge"]}
{"id": "C15", "title": "YAML maps are converted to string-keyed maps everywhere", "statement": "After conversion no map with non-string keys remains at any depth; values under string keys are kept; non-string keys appear under their printed form; converting twice equals converting once.", "quantifier": "all dynamic YAML values", "why_tests_cant": "unbounded nesting", "anchors": ["internal/container/utils.go: mmap", "internal/container/container.go: ReadYAML"]}
{"id": "C16", "title": "Set then get, and nothing else changes", "statement": "For every document, value and path of object keys: if SetP succeeds, Path on the same path returns the (cloned) value, and every location that is neither on, above nor below the path keeps its value; missing intermediate objects are created; SetP fails exactly when the path runs into a scalar, or into an array with an unusable index.", "quantifier": "all documents, paths and values", "why_tests_cant": "unbounded trees and paths", "anchors": ["internal/container/container.go: SetP, Path, ExistsP"]}
{"id": "C17", "title": "ExtractKey finds exactly the occurrences of a key", "statement": "For documents whose object keys contain neither '.' nor '~' and are non-empty, ExtractKey(c, '$ref') lists exactly the locations whose last key is '$ref' and whose value is a scalar, once each, and reading each reported dot path with Path returns the reported value. With a '.' in some key (such as a media type 'application/vnd.api+json') the reported path does not lead back to the value.", "quantifier": "all documents", "why_tests_cant": "unbounded trees", "anchors": ["internal/container/utils.go: ExtractKey", "internal/container/container.go: Flatten"]}
{"id": "C18", "title": "Dot-path encoding of key lists", "statement": "For every non-empty list of keys none of which contains '.', reading SliceToDotPath(keys) as a dot path gives the keys back ('~' included); for keys containing '.', it does not: 'a.b' is read back as 'a~1b'.", "quantifier": "all key lists", "why_tests_cant": "unbounded strings", "anchors": ["internal/container/utils.go: SliceToDotPath"]}
{"id": "C19", "title": "Format emits every top-level key once, listed keys in the listed order", "statement": "For every document the sorted marshaller emits each top-level entry exactly once with its value; the keys openapi, info, components, paths appear in that relative order; every other key appears before all of them (not after); if at most one key is unlisted the order is unique whatever the map iteration order and sort algorithm, while with two unlisted keys both orders are possible.", "quantifier": "all documents, all map iteration orders, any correct (possibly unstable) sort", "why_tests_cant": "random map order and unstable sort", "anchors": ["internal/container/sort.go: SortMapMarhsaler, MapSlice, indexOf", "oapi.go: order, Format"]}
{"id": "C20", "title": "JSON output parses back to the document", "statement": "For every document whose top-level keys contain no control character other than \\b \\t \\n \\f \\r and whose numbers are finite, Format json and Format json:pretty succeed and the bytes written parse back to exactly that document, whatever else its strings contain (quotes, HTML characters, U+2028, control characters below the top level); Format fails exactly when a number is not finite or a top-level key has another control character; an unknown format name is an error.", "quantifier": "all documents, format names, map iteration orders and (unstable) sorts", "why_tests_cant": "unbounded trees and strings", "anchors": ["internal/container/sort.go: MapSlice.MarshalJSON, Sorter.MarshalJSON, MarshalIndentJSON", "oapi.go: Format"]}
{"id": "C21", "title": "Generated Go file carries the JSON", "statement": "For format go, the constant in the produced file denotes exactly the JSON text (which parses back to the document) whenever no key or string value of the document contains a backtick; as soon as one does (any description with inline code) the literal ends at the first one and the constant is a proper prefix of the JSON.", "quantifier": "all documents", "why_tests_cant": "unbounded strings", "anchors": ["temp.go: tpl, produceGoFile", "oapi.go: Format"]}
{"id": "C22", "title": "Containers do not alias their sources", "statement": "In any program that makes, clones, sets and merges containers from parts of each other and from the caller's own memory, and in between overwrites any memory that is not inside a container, every call has the outcome and every container the contents it would have if containers were independent values: no two containers share a map or slice, a call writes only inside the container it is called on, and that container never takes over existing memory. (Exception: a value passed in that holds a map with interface keys is itself converted in place.)", "quantifier": "all object graphs and update histories", "why_tests_cant": "aliasing is invisible to value tests", "anchors": ["internal/container/container.go: Make, Clone, SetP", "internal/container/merge.go: Merge"]}
{"id": "C23", "title": "No external reference survives resolution", "statement": "If Resolve succeeds on a document whose keys (and the keys of every schema produced by the resolution function, and the export names) contain no '.' or '~', the result contains no '$ref' with a URL scheme, at any depth, for every map iteration order; except that a document or schema which is itself one external reference keeps it.", "quantifier": "all documents, resolution functions, export lists, iteration orders", "why_tests_cant": "unbounded reference graphs and schedules", "anchors": ["internal/oapi/resolver/resolver.go: Resolve, iterator, set, setRecursive", "internal/oapi/resolver/utils.go"]}
{"id": "C24", "title": "Resolution only touches references and exported components", "statement": "Every location of the document that is not inside an object holding an external '$ref', and not inside components.schemas.<exported name>, has the same value after resolution as before; in particular local '#/...' references are unchanged.", "quantifier": "all documents, iteration orders", "why_tests_cant": "frame condition over unbounded documents", "anchors": ["internal/oapi/resolver/resolver.go"]}
{"id": "C25", "title": "Resolution does not introduce dangling local references", "statement": "Every local reference to an exported schema that Resolve writes has its component present at components.schemas.<name> in the result, including for recursive and mutually recursive exports.", "quantifier": "all documents, reference graphs, iteration orders", "why_tests_cant": "unbounded cyclic graphs", "anchors": ["internal/oapi/resolver/resolver.go: set, setRecursive"]}
{"id": "C26", "title": "Resolution terminates on cyclic schemas", "statement": "If the resolution function only ever mentions finitely many distinct pointers, Resolve terminates for every document and every iteration order, with recursion depth at most the number of those pointers plus one.", "quantifier": "all finite (cyclic) reference graphs", "why_tests_cant": "termination cannot be tested", "anchors": ["internal/oapi/resolver/resolver.go: iterator, path.has"]}
{"id": "C27", "title": "Resolution is substitution", "statement": "Without exports and when objects holding an external '$ref' have no references beside it, the result of Resolve is, for every iteration order, the document in which each such object is replaced by the recursively resolved schema of its pointer, a pointer already being expanded being replaced by the empty object.", "quantifier": "all documents, reference graphs, iteration orders", "why_tests_cant": "unbounded graphs and schedules", "anchors": ["internal/oapi/resolver/resolver.go"]}
{"id": "C28", "title": "Exported component contents can depend on iteration order", "statement": "There is a document, an export and a resolution function (two mutually recursive schemas, one exported) for which two iteration orders produce different documents: the output is not a function of the input.", "quantifier": "existential over schedules", "why_tests_cant": "needs two specific random map orders", "anchors": ["internal/oapi/resolver/resolver.go: iterator, set"]}
{"id": "C29", "title": "Component path and component reference agree", "statement": "For every entity kind and every name without '.', '~' and '/', the dot path under which an entity is stored and the fragment by which it is referenced address the same location; names with '.' or '/' (for instance a schema exported under its full pointer text) address different locations.", "quantifier": "all kinds and names", "why_tests_cant": "unbounded strings", "anchors": ["internal/oapi/resolver/utils.go: Entity.Path, Entity.Fragment, SetEntity", "internal/oapi/spec/entity.go"]}
{"id": "C30", "title": "Overrides take precedence over scanned types", "statement": "While resolving, a pointer whose text is a key of the override map is resolved to the override whatever its scheme and whether or not the type exists; any other non-go scheme makes the scan fail.", "quantifier": "all pointers and override maps", "why_tests_cant": "all pointer texts", "anchors": ["oapi.go: Scan (resolver closure), WithOverride"]}
{"id": "C31", "title": "Root configuration merging", "statement": "Merging the root configuration gives: every 'info' leaf of the root wins; components are the strict union (any common leaf makes it fail); paths and externalDocs keep the document's leaves; and every key other than info, components, paths, externalDocs, security, servers, tags is untouched.", "quantifier": "all documents and roots", "why_tests_cant": "unbounded trees", "anchors": ["internal/oapi/oapi.go: MergeWithRoot"]}
{"id": "C32", "title": "Root merging destroys list-valued sections", "statement": "Whenever the document or the root has a (list-valued) servers, security or tags section, after MergeWithRoot that section is the empty object: all servers, security requirements and tags are lost.", "quantifier": "all documents and roots", "why_tests_cant": "must hold for all lists", "anchors": ["internal/oapi/oapi.go: MergeWithRoot", "internal/container/merge.go: Merge"]}
{"id": "C33", "title": "Root merging panics on scalar sections", "statement": "If one of the seven sections holds a string, number or boolean in the document, MergeWithRoot panics (reflect IsNil) instead of returning an error.", "quantifier": "all documents", "why_tests_cant": "all scalar kinds", "anchors": ["internal/container/container.go: IsNil", "internal/oapi/oapi.go: MergeWithRoot"]}
{"id": "C34", "title": "Operation defaults never override and only touch matching operations", "statement": "For documents whose path and method keys contain no '.', after SetPathsDefaults every leaf an operation had is kept, each operation whose method and path match a pattern has gained exactly the missing keys of that pattern's defaults, operations matching no pattern and everything outside paths are unchanged, and no path or method is added.", "quantifier": "all documents, default maps and iteration orders", "why_tests_cant": "unbounded documents", "anchors": ["internal/oapi/oapi.go: SetPathsDefaults, Paths, FlattenPaths.Match"]}
{"id": "C35", "title": "Defaults invent a path when a matched path contains a dot", "statement": "If an operation under a path containing '.' (such as /pet.json) matches a default pattern, SetPathsDefaults adds to the document a second path whose name has '~1' in place of '.', holding a copy of the operation.", "quantifier": "all such documents", "why_tests_cant": "all path texts", "anchors": ["internal/oapi/oapi.go: SetPathsDefaults", "internal/container/utils.go: SliceToDotPath"]}
{"id": "C36", "title": "Path-level fields are treated as operations", "statement": "Paths lists every key of a path item as an operation; consequently a non-empty default whose pattern (without method) matches a path item that has a string or list valued field such as summary, description, $ref, parameters or servers makes SetPathsDefaults fail.", "quantifier": "all documents with path-level fields", "why_tests_cant": "all documents", "anchors": ["internal/oapi/oapi.go: Paths, SetPathsDefaults"]}
{"id": "C37", "title": "Route patterns match segment variables and wildcards", "statement": "For patterns built from literal text without regular-expression metacharacters, {name} variables and '*', Match holds exactly when the path can be split so that literals match themselves, each variable a non-empty run without '/', and each '*' any run without newline; the whole path must be consumed.", "quantifier": "all patterns of this form and all paths", "why_tests_cant": "unbounded strings", "anchors": ["internal/route/route.go: Match"]}
{"id": "C38", "title": "Method prefixes filter case-insensitively", "statement": "A pattern 'METHOD:rest' with a known method, in any letter case, matches only requests of that method (in any case) or requests with no method, and then behaves as 'rest'; a pattern without a known method prefix ignores the method.", "quantifier": "all patterns, methods, paths", "why_tests_cant": "all case variants", "anchors": ["internal/route/route.go: Match, methods"]}
{"id": "C39", "title": "The tail of a pattern is interpreted as a regular expression", "statement": "Text before the last variable is quoted and matches only itself, but the text after the last variable (the whole pattern when there is none) is used as a raw regular expression: '/a.b' matches '/axb', and a tail with an unbalanced bracket makes Match return an error.", "quantifier": "all patterns", "why_tests_cant": "unbounded strings", "anchors": ["internal/route/route.go: Match"]}
{"id": "C40", "title": "The compiled-pattern cache is transparent under concurrency", "statement": "For every interleaving of any number of concurrent Match calls, each call returns what it would return with an empty cache, and failed compilations are never cached.", "quantifier": "all call histories and interleavings", "why_tests_cant": "schedules", "anchors": ["internal/route/route.go: compileCached, relock"]}
{"id": "C41", "title": "Ignored fields", "statement": "tag.Parse marks a field ignored exactly when its json or oapi tag name is '-'; an oapi name cannot undo a json '-'.", "quantifier": "all tag strings", "why_tests_cant": "all tag contents", "anchors": ["tag/tag.go: Parse, parseJSONTag, parseOAPITag"]}
{"id": "C42", "title": "Tag name precedence", "statement": "The resulting name is the oapi tag's name if non-empty, otherwise the json tag's name if non-empty, otherwise empty.", "quantifier": "all tag strings", "why_tests_cant": "all combinations", "anchors": ["tag/tag.go: parseJSONTag, parseOAPITag"]}
{"id": "C43", "title": "Each oapi option sets its own attribute", "statement": "Every numeric, string and boolean oapi option sets exactly its attribute and no other, except mulof, which is stored as the exclusive minimum: MulOf is never set by any tag.", "quantifier": "all option maps", "why_tests_cant": "all combinations of 22 options", "anchors": ["tag/tag.go: parseOAPITag"]}
{"id": "C44", "title": "Tag value errors", "statement": "tag.Parse fails exactly when the tag is malformed or an integer or float option does not parse, or inline/nullable is not a boolean; a malformed value of any other boolean option is silently read as false.", "quantifier": "all option maps", "why_tests_cant": "all combinations", "anchors": ["tag/tag.go: parseTagBool, parseTagBoolPtr, parseTagIntPtr, parseTagFloatPtr"]}
{"id": "C45", "title": "An oapi tag resets json omitempty", "statement": "If a field has a (non-'-') oapi tag, OmitEmpty is decided by the oapi tag alone: json omitempty is lost when the oapi tag does not repeat it.", "quantifier": "all tag pairs", "why_tests_cant": "all combinations", "anchors": ["tag/tag.go: parseOAPITag, parseTagBool"]}
{"id": "C46", "title": "A blank struct tag crashes the parser", "statement": "tag.Parse panics on every non-empty tag made only of spaces, and returns without panicking on every other tag.", "quantifier": "all tag strings", "why_tests_cant": "all strings", "anchors": ["tag/tag.go: Parse, parseTag"]}
{"id": "C47", "title": "Type collection terminates on recursive types", "statement": "Collecting the pointers of a type terminates for every finite, possibly mutually recursive, set of Go type declarations, with recursion depth bounded by the number of distinct types.", "quantifier": "all finite type environments", "why_tests_cant": "termination", "anchors": ["internal/oapi/scan/types/types.go: walk, path.visit"]}
{"id": "C48", "title": "Every reachable location is registered", "statement": "After collecting a type, every location reachable from it through exported fields, pointers and elements along a path that does not repeat a type, and every named type used there, has its pointer registered under the type found there.", "quantifier": "all type environments and locations", "why_tests_cant": "unbounded graphs", "anchors": ["internal/oapi/scan/types/types.go: walk"]}
{"id": "C49", "title": "Registered pointers denote their type", "statement": "Every registered pointer, followed from its declared root type through the named fields, '*' and '[]' steps, leads to a type identical to the one it is registered under.", "quantifier": "all type environments", "why_tests_cant": "unbounded graphs", "anchors": ["internal/oapi/scan/types/types.go: walk", "internal/oapi/scan/types/point.go"]}
{"id": "C50", "title": "Schema conversion terminates and its references resolve", "statement": "Converting a collected type to a schema terminates, and every '$ref' in the produced schema is a registered pointer to the referenced type, so resolving it succeeds in finding a type again.", "quantifier": "all type environments", "why_tests_cant": "unbounded graphs", "anchors": ["internal/oapi/scan/types/types.go: type2schema, reference2schema", "internal/oapi/scan/types/scan.go: Resolve"]}
{"id": "C51", "title": "Basic kinds map to the documented type and format", "statement": "Each Go basic kind that is supported produces the documented type/format/minimum; numeric bounds from the tag are applied to numbers only and length bounds to strings only; an exclusive bound replaces an inclusive one; every other kind is rejected.", "quantifier": "all basic kinds and tags", "why_tests_cant": "all tags", "anchors": ["internal/oapi/scan/types/types.go: basic2schema, basicString2schema"]}
{"id": "C52", "title": "Object schemas list exactly the visible fields", "statement": "The properties of a struct schema are exactly the names (tag name or field name) of its exported, non-ignored fields, with fields of inlined or embedded structs contributed in place; nothing else.", "quantifier": "all struct types", "why_tests_cant": "unbounded nesting", "anchors": ["internal/oapi/scan/types/types.go: struct2schema, collectStructFields, castInlineStruct"]}
{"id": "C53", "title": "Struct fields lose their numeric format", "statement": "For every struct field that is not a reference, the property's format is exactly the tag's format option, so an int64 field without one has no format at all.", "quantifier": "all struct types", "why_tests_cant": "all fields", "anchors": ["internal/oapi/scan/types/types.go: struct2schema"]}
{"id": "C54", "title": "required is honoured except for references", "statement": "The required list consists, in field order, of the names of the required-tagged fields whose schema is not a reference; a required field of struct type is never listed.", "quantifier": "all struct types", "why_tests_cant": "all fields", "anchors": ["internal/oapi/scan/types/types.go: struct2schema"]}
{"id": "C55", "title": "Nullability of pointers, slices, maps and arrays", "statement": "Pointer, slice and map schemas are nullable unless the tag says otherwise, arrays are not nullable unless the tag says so; a nullable pointer to a referenced struct becomes a oneOf of the reference and a nullable object.", "quantifier": "all types and tags", "why_tests_cant": "all combinations", "anchors": ["internal/oapi/scan/types/types.go: pointer2schema, slice2schema, map2schema, array2schema"]}
{"id": "C56", "title": "Structurally identical types are conflated", "statement": "A reference is resolved by type identity of the underlying type and shortest fragment, so when two declared types have identical underlying structs a field of one can be given a reference to the other.", "quantifier": "existential", "why_tests_cant": "needs a specific pair of declarations", "anchors": ["internal/oapi/scan/types/point.go: pick, append"]}
{"id": "C57", "title": "Unknown Go pointers and error fields crash", "statement": "Resolving a go pointer that was not collected panics instead of returning an error; collecting a type with an exported field of the built-in type error panics.", "quantifier": "all pointers / all such types", "why_tests_cant": "all inputs", "anchors": ["internal/oapi/scan/types/scan.go: Resolve", "internal/oapi/scan/types/point.go: newPoint"]}
{"id": "C58", "title": "Packages are scanned exactly once, dependencies first", "statement": "Scan calls the scanner exactly once for each package reachable from the given ones through non-standard-library packages, never for a standard library package, and for acyclic imports only after all its non-standard imports have been scanned; the order is determined by the import graph alone.", "quantifier": "all import graphs", "why_tests_cant": "unbounded graphs", "anchors": ["internal/pkgutil/util.go: Scan"]}
{"id": "C59", "title": "All scan errors are reported", "statement": "Scan returns an error exactly when some visited package has load errors or its scanner fails; a failure in one package does not prevent the others from being scanned. The error's text has every collected error in it, one per line in the order they were collected, and tells which they were if each has one line.", "quantifier": "all import graphs and failure patterns", "why_tests_cant": "unbounded", "anchors": ["internal/pkgutil/util.go: Scan, newSingleError"]}
{"id": "C60", "title": "Comment commands", "statement": "A comment line starting (after the comment marker) with 'openapi' is a command; ':schema NAME' exports the package-local type NAME, ':schema NAME PTR' exports PTR under NAME, 'openapi' alone is the root command, every other word and every other argument count is an error; other comments are ignored.", "quantifier": "all comment texts", "why_tests_cant": "unbounded strings", "anchors": ["internal/oapi/scan/cmds/cmds.go", "internal/oapi/scan/cmds/schema.go"]}
{"id": "C61", "title": "A malformed schema pointer in a comment is not reported", "statement": "An unparseable pointer argument of ':schema' does not make parsing fail: the command is returned with a pointer that keeps the URL and has an empty fragment, or with the zero pointer when even the URL is malformed.", "quantifier": "all such comments", "why_tests_cant": "all strings", "anchors": ["internal/oapi/scan/cmds/schema.go: NewCmdSchema"]}
{"id": "C62", "title": "Exports have distinct pointers but not distinct names", "statement": "ExportedComponents fails exactly when two schema commands have the same pointer text; on success the exports are the schema commands in order, with pairwise distinct pointer texts; two different pointers may share a name.", "quantifier": "all command lists", "why_tests_cant": "unbounded", "anchors": ["internal/oapi/scan/cmds/scan.go: ExportedComponents"]}
{"id": "C63", "title": "Local go references are made absolute", "statement": "While scanning a package's spec file, every scalar '$ref' of the form go://#/X is rewritten to go://<pkg>#/X, every other parseable reference keeps its pointer, and nothing else in the document changes (keys without '.' or '~').", "quantifier": "all documents", "why_tests_cant": "unbounded", "anchors": ["internal/oapi/scan/specs/scan.go: Scan"]}
{"id": "C64", "title": "Configuration precedence", "statement": "The effective directory is absolute and is where the flag leads from the working directory if the flag is given, else where the config file's entry leads from the directory of the config file, else the working directory; the effective format is the flag's, else the config's, else json:pretty.", "quantifier": "all flag/config combinations", "why_tests_cant": "all combinations", "anchors": ["cmd/oapi/config.go: full, toAbsPath"]}
{"id": "C65", "title": "Output selection", "statement": "If the configuration could be read, the output is the file the flag leads to from the working directory, else the file the config entry leads to from the effective directory, else stdout; 'stderr' is then never selected by any combination, and a 'stdout' or 'stderr' flag is the same as no flag: it does not override a config file path. If the configuration could not be decoded the command goes on with the raw entries, and then 'stderr' can be selected.", "quantifier": "all combinations", "why_tests_cant": "all combinations", "anchors": ["cmd/oapi/config.go: full"]}
{"id": "C66", "title": "extends is a one-level default merge", "statement": "A configuration with an extends file is that configuration with exactly the missing leaves filled in from the file (numbers become doubles), whatever order maps are iterated in; no third file is read: the file's own extends entry is not followed. A missing extends file is an error. A configuration holding a non-finite number is silently read as empty.", "quantifier": "all configurations", "why_tests_cant": "unbounded", "anchors": ["internal/oapi/config/config.go: extends, ReadFile"]}
{"id": "C67", "title": "Scan never returns without an error", "statement": "Scan decodes the final document, always a JSON object, into a string field, so even a successful scan returns a non-nil error together with the document.", "quantifier": "all inputs", "why_tests_cant": "all documents", "anchors": ["oapi.go: newOAPI, Scan"]}
{"id": "C68", "title": "A failing run still overwrites the output", "statement": "Errors do not stop the command: for a file output, whatever fails before, the command still removes the existing file and writes it anew, with 'null' as contents when the scan failed early and the format is json; at every moment in between the file is the old one, absent, or a prefix of the new text, and no other file changes. With the default log level nothing is reported.", "quantifier": "all failure points", "why_tests_cant": "failure histories", "anchors": ["cmd/oapi/main.go: main", "internal/logging/logging.go"]}
{"id": "C74", "title": "Path cleaning and joining preserve where paths lead", "statement": "Cleaning a path yields the one shortest form that leads to the same directory from every working directory and is idempotent; a path made absolute against a base is absolute and leads where the path leads from the base; the directory of an absolute path is where the path without its last element leads.", "quantifier": "all paths and working directories", "why_tests_cant": "unbounded", "anchors": ["cmd/oapi/config.go: toAbsPath", "internal/oapi/config/config.go: extends", "internal/pkgutil/info.go: getPkgPath"]}
{"id": "C75", "title": "Package directories", "statement": "The directory of a package of a module is where the rest of the package path leads from the module's directory; a module without a directory is an error; a package without a module is looked for directly below GOPATH (not below GOPATH/src) and is an error if nothing is there.", "quantifier": "all packages and modules", "why_tests_cant": "unbounded", "anchors": ["internal/pkgutil/info.go: getPkgPath, GetPkgPath"]}
{"id": "C69", "title": "removeDuplicates sorts and deduplicates", "statement": "removeDuplicates returns the strictly sorted list of the distinct elements; NewServers lists every distinct given URL plus '/', and one templated server whose host, port and path variables list the distinct hosts (with localhost), ports and paths of those URLs, each defaulting to the smallest; it fails exactly when some URL does not parse. NewServers(s...) leaves the caller's slice alone when it has no spare capacity; with spare capacity it sorts it in place and may overwrite an element (refuted that the argument is kept).", "quantifier": "all string lists", "why_tests_cant": "unbounded", "anchors": ["internal/oapi/spec/server_util.go: removeDuplicates, NewServers"]}
{"id": "C70", "title": "Response builders", "statement": "AddHeader/AddContent/AddLink with a non-nil value set exactly that entry; a nil header removes the header; a nil content or link removes the header of that name instead of the content or link.", "quantifier": "all responses", "why_tests_cant": "all maps", "anchors": ["internal/oapi/spec/response_util.go"]}
{"id": "C71", "title": "Entity kinds", "statement": "Kinds with a component section have pairwise distinct keys and paths 'components.<key>' matching fragments '/components/<key>'; the header kind has no section ('invalid').", "quantifier": "all kinds", "why_tests_cant": "finite but must be exhaustive", "anchors": ["internal/oapi/spec/entity.go"]}
{"id": "C72", "title": "Union types round-trip through JSON", "statement": "AnyOrExpressions and Callback decode what they encode: any non-string JSON value and any non-empty expression round-trips; a raw string value comes back as an expression and the empty string encodes as null; encoding fails exactly on a raw value that is not JSON. A callback reference, a nil callback and a callback map without the key $ref come back.", "quantifier": "all values", "why_tests_cant": "unbounded", "anchors": ["internal/oapi/spec/any_or_expressions.go", "internal/oapi/spec/callback.go", "internal/oapi/spec/any.go"]}
{"id": "C73", "title": "Log levels parse case-insensitively", "statement": "ParseLevel accepts exactly the eight level names in any letter case, mapping them to the logrus numbers, and rejects everything else (outside ASCII, U+0130 also counts as i and U+212A as k).", "quantifier": "all strings", "why_tests_cant": "all case variants", "anchors": ["internal/logging/logging.go: ParseLevel"]}
{"id": "C76", "title": "A scan leaves no external reference, except those of default operations", "statement": "Whatever order Go chooses for its maps and sorts, an external reference in the document Scan returns is the text of an external reference of some default operation given with WithDefOps; so if the default operations have none, the document has none. References that come in with the default operations are not resolved.", "quantifier": "all package graphs, files, options and iteration orders", "why_tests_cant": "whole-program statement over unbounded inputs and all orders", "anchors": ["oapi.go: Scan", "internal/oapi/resolver/resolver.go", "internal/oapi/scan/specs/scan.go", "internal/oapi/scan/types/types.go", "internal/oapi/oapi.go: MergeWithRoot, SetPathsDefaults"]}
{"id": "C78", "title": "Scan options", "statement": "Of several options of the same kind only the last counts; options of different kinds commute; the logger has no effect; a failing option makes Scan fail without a document; packages are loaded from the last given directory, or the working directory, and from nowhere else.", "quantifier": "all option lists and surroundings", "why_tests_cant": "unbounded option sequences", "anchors": ["oapi.go: Scan, Options, WithDir, WithLog, WithOverride, WithDefOps, WithRootSchema"]}
{"id": "C79", "title": "Pointers marshal to their text", "statement": "A pointer's JSON form is its text, for every pointer whose text has no control characters but backspace, tab, newline, form feed and carriage return; for other pointers marshalling fails (Go quoting is used, not JSON quoting).", "quantifier": "all pointers", "why_tests_cant": "all byte strings", "anchors": ["internal/pointer/pointer.go: MarshalJSON, String"]}
{"id": "C80", "title": "The JSON form of a schema", "statement": "A schema of the scanner has a JSON form exactly if every reference in it marshals; it then is an object whose members are the schema's attributes under their OpenAPI names, attributes at their zero value being absent, and no other members.", "quantifier": "all schemas", "why_tests_cant": "unbounded nesting", "anchors": ["internal/oapi/spec/schema.go: Schema", "internal/oapi/spec/refable.go: Refable"]}
{"id": "C81", "title": "References survive JSON", "statement": "A reference written by MarshalJSON is a JSON string of its text, and UnmarshalJSON reads it back as the same reference; any string encoded by json.Marshal is read as that string. Refuted: a JSON string with an escaped slash (legal JSON for the same text) is read with its quotes and backslash, and JSON numbers and literals are accepted as references.", "quantifier": "all pointers and JSON strings", "why_tests_cant": "all escapes", "anchors": ["internal/pointer/pointer.go: UnmarshalJSON, MarshalJSON"]}
{"id": "C82", "title": "JSON text has one reading, kept by compaction", "statement": "The JSON texts the tool accepts (encoding/json, on which its raw values rest) are exactly blanks around a laid out value of the JSON grammar; json.Marshal of a raw value keeps its value, removes all blanks and is idempotent. Escaped surrogate pairs read as the UTF-8 of their code point, lone ones as U+FFFD.", "quantifier": "all byte strings", "why_tests_cant": "unbounded nesting and layouts", "anchors": ["internal/oapi/spec/any.go: Any", "internal/container/container.go: ReadJSON"]}
{"id": "C77", "title": "What a specification file says survives the scan", "statement": "If Scan builds a document, then every value of every specification file of every visited package is in it at the same location -- texts, booleans and arrays unchanged, numbers as doubles, local references as the normal form of their pointer -- unless it is null, lies in info, security, servers or tags (governed by the root configuration), or lies at, above or below an external reference or an exported schema's component. Refuted without the number condition: a file with a non-finite number (YAML .inf) is left out silently and altogether.", "quantifier": "all package graphs, files, options, locations and iteration orders", "why_tests_cant": "whole-program statement over unbounded inputs and all orders", "anchors": ["oapi.go: Scan", "internal/oapi/scan/specs/scan.go: Scan, Merge", "internal/oapi/oapi.go: MergeWithRoot, SetPathsDefaults", "internal/oapi/resolver/resolver.go: Resolve", "internal/container/merge.go: Merge"]}
{"id": "C83", "title": "Overlapping specification files are refused", "statement": "Two specification files, of one package or of two visited packages, that both hold a value at some location, not both of them objects, make Scan return an error and no document, even if the values are equal. As a file only counts if it has an 'openapi' member, two files that both give the version as a text can never be scanned together.", "quantifier": "all package graphs, files, options and iteration orders", "why_tests_cant": "whole-program statement over unbounded inputs and all orders", "anchors": ["oapi.go: Scan", "internal/oapi/scan/specs/scan.go: Scan, Merge", "internal/container/merge.go: Merge"]}
{"id": "C84", "title": "What resolution leaves at a reference and in a component", "statement": "After Resolve, an object that referred to a pointer that is not exported is the expansion of its entity: the entity with its own references expanded in turn, references to exported entities made local, and references that close a cycle made local (exported schemas) or empty objects; an object that referred to an exported pointer keeps its other members and refers to the component; the component holds the expansion of an entity exported under its name, reached by a chain of references from the document, and if that entity refers to exported schemas only, it is the entity with its references made local. Everything but exported components is independent of map iteration order.", "quantifier": "all documents, resolution functions, exports, iteration orders and depths", "why_tests_cant": "unbounded nesting and cycles, all orders", "anchors": ["internal/oapi/resolver/resolver.go: Resolve, iterator, set, setRecursive", "internal/oapi/resolver/utils.go: ReplacePtr, UpdatePtrToLocal, SetEntity"]}
{"id": "C85", "title": "What Scan adds to the specification files", "statement": "If Scan builds a document, then in it: every value of the root configuration is there (in info and components always, in the other sections where no file is in the way); a member that only one matching default operation has, and neither the files nor the root give, is in the operation (with several, one of their values); a reference of a file to an overridden pointer is replaced by the override, one to a struct type by the schema of that struct (an object, its fields of basic or tagged type as properties of the documented type, no others), and one to an exported pointer by a reference to its component, which holds the override or the struct's schema. Types named by schema commands are walked even if nothing refers to them (a type reaching error makes Scan fail), but a command that nothing refers to adds no component.", "quantifier": "all package graphs, files, options, locations and iteration orders", "why_tests_cant": "whole-program statement over unbounded inputs and all orders", "anchors": ["oapi.go: Scan", "internal/oapi/oapi.go: MergeWithRoot, SetPathsDefaults", "internal/oapi/resolver/resolver.go: Resolve", "internal/oapi/scan/cmds/scan.go", "internal/oapi/scan/types/types.go"]}
{"id": "C86", "title": "Schema builder calls", "statement": "A chained call on a schema does to it what it says (assign, append, add a property, make the XML or documentation object), and nothing to other schemas that share no map, list array, documentation or XML object with it. In every program whose lists and maps are written out in its calls, each schema shows exactly what its own calls did, in order, and the last call assigning an attribute decides it. Refuted in general: WithProperties, WithRequired, WithAllOf and the like keep the caller's map or slice, so a later call on one schema shows in another, overwrites elements of another's list, or changes the caller's map.", "quantifier": "all sequences of constructor and builder calls on all heaps", "why_tests_cant": "unbounded call sequences and aliasing", "anchors": ["internal/oapi/spec/schema_util.go"]}
{"id": "C87", "title": "Raw values decode in place", "statement": "Decoding JSON into a raw value succeeds exactly for JSON texts and leaves the text of the value read, without the blanks around it; raw values in other arrays keep their text. Refuted for raw values sharing an array: they are overwritten whenever the new text fits; all date and date-time properties share one example, so reading an example into one of them corrupts it for all (the rest is no longer JSON).", "quantifier": "all heaps, slices, capacities and texts", "why_tests_cant": "all aliasing patterns and capacities", "anchors": ["internal/oapi/spec/any.go: UnmarshalJSON, NewAny", "internal/oapi/spec/schema_util.go: timeExample, DateProperty, DateTimeProperty"]}
{"id": "C88", "title": "Parameter and security scheme constructors", "statement": "A parameter has the name, location, description, schema and emptiness that its constructor and the last calls of each kind say, and is required exactly if it was made by PathParam and never made optional; basic, bearer and API key schemes are as documented. Refuted: header and cookie parameters are never required (documented as always), every OAuth2 constructor crashes whatever its arguments, and DateProperty and DateTimeProperty have the formats data and data-time.", "quantifier": "all chains of calls and all arguments", "why_tests_cant": "unbounded call sequences", "anchors": ["internal/oapi/spec/parameter_util.go", "internal/oapi/spec/security_scheme_util.go", "internal/oapi/spec/schema_util.go: DateProperty, DateTimeProperty"]}
{"id": "C89", "title": "What reading a configuration into the spec structs keeps", "statement": "A configuration (or any OpenAPI object) is accepted exactly if each value of a known member, names in any letter case, is null or of its kind; it can then be written again if its references can. Every value of a known member that omitempty does not drop is written at the same place under the proper name (texts, booleans, raw values unchanged, numbers as doubles, references in normal form); nothing else is written except the members without omitempty, at their zero value; members of other names are dropped. Refuted: the scopes of an OAuth flow are lost (the field is called acopes), path items lose $ref and extensions, a boolean additionalProperties makes the configuration fail, references to responses, parameters, headers and examples gain members.", "quantifier": "all JSON documents and all struct types of the spec package and the configuration", "why_tests_cant": "unbounded nesting, all member spellings", "anchors": ["internal/oapi/spec/*.go: struct tags", "internal/oapi/config/config.go: Config", "internal/oapi/spec/any.go", "internal/oapi/spec/any_or_expressions.go", "internal/oapi/spec/callback.go", "internal/oapi/spec/refable.go"]}
{"id": "C90", "title": "From the configuration file to the document", "statement": "The configuration file is accepted exactly if each value is of its kind. Then, in a successful run, what it says below info, components and externalDocs is found in the document at the same place; what it says about the operations of a route pattern is found in every operation the pattern selects that lacks that member, if no other pattern gives it; a reference to an overridden and not exported type is replaced by the configured schema. Nothing else in the configuration influences the scan (openapi, version, exclude and unknown members are without effect). Refuted: the servers (tags, security) of the configuration are lost, and its openapi version is ignored.", "quantifier": "all configuration files and flags, source trees, packages and iteration orders", "why_tests_cant": "all configurations, file contents and orders", "anchors": ["cmd/oapi/scan.go: scan", "cmd/oapi/config.go: full", "internal/oapi/config/config.go: ReadFile, Config", "oapi.go: Scan"]}
{"id": "C91", "title": "Scan comes to an end", "statement": "Given packages, files and options that are in order, Scan returns, with a document or an error, in whatever order maps are iterated: it neither crashes nor runs forever, although struct types may refer to themselves, packages form any import graph, and schemas refer to one another in cycles. In order means: distinct import paths; sections of files and root configuration that are objects or lists; object default operations under valid patterns; no predeclared type (error) below an exported or referenced type; tags that are not only blanks; pointers of one text meaning one place; and every reference out of its document, in the files, the root configuration and the overrides, is overridden, or not to Go (then an error), or to a place below a type that a file or a command names. Options that fail and packages that cannot be loaded give an error. Refuted without the last condition: a reference in the root configuration to an existing Go type that no file or command mentions makes Scan crash; so does one in a file to a name its package does not have.", "quantifier": "all packages, type graphs, files, options and iteration orders", "why_tests_cant": "all type graphs and orders; termination", "anchors": ["oapi.go: Scan", "internal/oapi/resolver/resolver.go: Resolve", "internal/oapi/scan/types/scan.go: Scan", "internal/oapi/scan/types/types.go"]}
{"id": "C92", "title": "Documents the spec helpers build", "statement": "The document written for an XML object after any chain of its methods has the name, and of namespace, prefix, attribute and wrapped those that are set, each as the last call that sets it said. A header's methods change in its document only description and allowEmptyValue (to what the last call said) and required, which AsOptional removes; no chain makes a header required. Each request body and response constructor yields a document with the schema under its media type and nothing else; without a schema the media type is an empty object. NewComponents is written as an empty object. Operations of a path item lists exactly the operations its document has, in the order get, put, post, delete, options, head, patch, trace.", "quantifier": "all chains of calls, field values, schemas and path items", "why_tests_cant": "all call sequences", "anchors": ["internal/oapi/spec/xml.go", "internal/oapi/spec/header_util.go", "internal/oapi/spec/request_body_util.go: NewRequestBody", "internal/oapi/spec/response_util.go: NewResponse", "internal/oapi/spec/components.go: NewComponents", "internal/oapi/spec/paths.go: Operations"]}
{"id": "C93", "title": "Resolve succeeds when nothing is wrong", "statement": "If the document and every entity the resolution function is asked for is an object or array with plain keys, finite numbers and references that are pointers (one per object, none at the top), only finitely many pointers are asked for, nothing but an object is in the way of the components of the exported kinds, and no reference of the document is at, above or below the place of an exported entity, then Resolve returns a document, whatever the order in which it meets references and however the entities refer to one another.", "quantifier": "all documents, exports, resolution functions and iteration orders", "why_tests_cant": "all reference graphs and orders", "anchors": ["internal/oapi/resolver/resolver.go: Resolve, iterator, set, setRecursive", "internal/oapi/resolver/utils.go: SetEntity, ReplacePtr, UpdatePtrToLocal"]}
{"id": "C94", "title": "Scan builds a document when everything is in order", "statement": "If, besides what C91 asks, the visited packages were loaded without errors and have well-formed commands that export no pointer twice; the specification files can be read, their references are pointers and, made absolute, they agree; the root configuration can be merged into them; every reference of the merged document and of the overrides is to an overridden pointer or to a known Go type; the types needed have schemas (readable tags, supported kinds, finite numbers); nothing is in the way of the exported components or of the default operations, then Scan builds a document, whatever the order in which maps are iterated and packages visited. Each kind of violation is shown, in an example, to lead to an error and no document.", "quantifier": "all packages, type graphs, files, options and iteration orders", "why_tests_cant": "all inputs that are in order, and all orders: tests can show single successes only", "anchors": ["oapi.go: Scan", "internal/oapi/scan/specs/scan.go: Scan, Merge", "internal/oapi/scan/cmds/scan.go: Scan", "internal/oapi/scan/types/scan.go: Scan", "internal/oapi/resolver/resolver.go: Resolve", "internal/oapi/scan/types/types.go"]}
{"id": "C95", "title": "Scan's document does not depend on the order of maps", "statement": "If everything is in order (C94), every struct type (and every type that contains itself as an element) that references lead to has a single nearest location, and no operation is selected by two default patterns, then two scans of the same packages, files and options build documents that agree everywhere outside the exported components, whatever the orders in which Go iterates its maps, visits packages and sorts points; without exported components they build the same document. Each condition matters: with two equally near locations, with two patterns for an operation, and inside the components when a type that is not exported refers back to an exported one, two orders give different documents.", "quantifier": "all packages, type graphs, files, options and pairs of iteration orders", "why_tests_cant": "all pairs of map iteration orders; a test sees one order per run", "anchors": ["oapi.go: Scan", "internal/oapi/oapi.go: SetPathsDefaults", "internal/oapi/scan/types/point.go: pick", "internal/oapi/scan/specs/scan.go: Merge", "internal/oapi/resolver/resolver.go: Resolve", "internal/oapi/scan/types/types.go: reference2schema"]}
{"id": "C96", "title": "A component is written exactly for what is referred to", "statement": "After Resolve, everything the document refers to, directly or through the entities it refers to, was found. Each exported entity among it has its component, which is the expansion of an entity exported under that name as met along a chain of references. If nothing that is referred to is exported under a name, the component of that name is as it was in the document (absent, if it was): exporting alone writes nothing.", "quantifier": "all documents, exports, resolution functions and iteration orders", "why_tests_cant": "all reference graphs and orders", "anchors": ["internal/oapi/resolver/resolver.go: Resolve, iterator, set, setRecursive", "internal/oapi/resolver/utils.go: SetEntity, ReplacePtr, UpdatePtrToLocal"]}
{"id": "C97", "title": "Resolve's document does not depend on the order of maps", "statement": "If only schemas are exported, under each name one entity, and everything on a cycle of references with an exported entity is itself exported, then two runs of Resolve on the same document build the same document, components included, whatever the orders in which they iterate maps. Each condition matters: with exported responses that refer to one another, with two entities under one name, and with an unexported entity on a cycle, two orders give different documents.", "quantifier": "all documents, exports, resolution functions and pairs of iteration orders", "why_tests_cant": "all pairs of map iteration orders; a test sees one order per run", "anchors": ["internal/oapi/resolver/resolver.go: Resolve, iterator, set, setRecursive", "internal/oapi/resolver/utils.go: SetEntity, ReplacePtr, UpdatePtrToLocal"]}
{"id": "C98", "title": "Scan's whole document does not depend on the order of maps", "statement": "If everything is in order (C94), every type that schemas refer to has a single nearest location and no operation is selected by two default patterns (C95), no name is exported for two pointers, and everything that is on a cycle of references with an exported type (through schemas of types and through overrides) is exported too, then two scans of the same packages, files and options build the same document, components included, whatever the orders in which Go iterates its maps, visits packages and sorts points. Refuted without the conditions: two types exported under one name (which of them becomes the component depends on the order); for a cycle through a type that is not exported see C95.", "quantifier": "all packages, type graphs, files, options and pairs of iteration orders", "why_tests_cant": "all pairs of map iteration orders; a test sees one order per run", "anchors": ["oapi.go: Scan", "internal/oapi/resolver/resolver.go: Resolve, setRecursive", "internal/oapi/scan/types/point.go: pick", "internal/oapi/scan/types/types.go: reference2schema", "internal/oapi/oapi.go: SetPathsDefaults"]}
{"id": "C99", "title": "Running the command again gives the same file", "statement": "If the conditions of C98 hold for the options the configuration stands for, two runs of the command with this configuration, each of which can replace its output file, end with byte for byte the same file in the formats json, json:pretty and go, whatever the orders of maps in the scan and in the writer, the sort, the log level and the previous content of the file, provided at most one root member of the document is not among openapi, info, components and paths. With more such members the JSON text may differ (refuted), but each run's text reads back to the same document.", "quantifier": "all configurations, source trees, files, previous output files, and pairs of iteration orders", "why_tests_cant": "all pairs of map iteration orders; a test sees one order per run", "anchors": ["cmd/oapi/main.go: main", "cmd/oapi/scan.go: scan", "oapi.go: Scan, Format", "internal/container/sort.go: SortMapMarhsaler"]}
{"id": "C100", "title": "Nothing is invented", "statement": "Whatever Scan writes into the document has an origin: for every location of the result, the value there is the one that a specification file of a visited package has at that location (numbers in double precision, reference texts made absolute), or the one that the root configuration has there, or comes from a default operation whose pattern matches the path and method of an operation that is there anyway, or stands where (or below where) a file or the root configuration has a reference to something outside, or belongs to a component exported by a command. In particular every path and every operation is one of a file or of the root configuration, and every component is one of theirs or exported by a command.", "quantifier": "all sets of packages, files, options, Go declarations and map orders of usual runs of Scan, and all locations of the result", "why_tests_cant": "the claim excludes every possible extra content at every location of every result; a test can only look at a few documents", "anchors": ["oapi.go: Scan", "internal/oapi/resolver/resolver.go: Resolve", "internal/oapi/oapi.go: MergeWithRoot, SetPathsDefaults", "internal/container/merge.go: Merge"]}
{"id": "C101", "title": "What is not visited does not matter", "statement": "Scan reads nothing but the packages it visits (those asked for and, from them, the imported ones outside the standard library), and of their directories only the three specification files: two runs with the same options, in surroundings that differ only in the comments, types and directories of packages that are not visited, in other files, and in files named like specifications that can be read but have no openapi member, have the same outcome - document, error or panic - for all inputs, also malformed ones, and every map order. A file named like a specification that cannot be read does matter (the scan fails).", "quantifier": "all pairs of surroundings, package graphs, options and map orders", "why_tests_cant": "the claim is about every change that could be made to what is not visited; tests can try a few", "anchors": ["oapi.go: Scan", "internal/pkgutil/util.go: Scan", "internal/oapi/scan/specs/scan.go: Scan", "internal/container/container.go: ReadDir"]}
{"id": "C102", "title": "Pointers can be copied, printed and compared", "statement": "For every pointer obtained by parsing a text (and changing its fragment) - with any scheme, user information, host (a name or an IPv6 address), port, path, query - Clone does not panic and gives the same pointer with the same text; parsing the pointer's text gives the same pointer (if no token has a percent sign); and two pointers with the same text are the same pointer. Needed: the text has URL characters only, or a scheme, user or host, or its path does not begin with // nor has a colon before its first slash; and the zone of an IPv6 address is ASCII. Without these Clone can panic or change the path (refuted).", "quantifier": "all texts and all pointers made from them", "why_tests_cant": "all texts: escapes, ports, opaque URLs, queries and relative paths interact", "anchors": ["internal/pointer/pointer.go: Parse, Clone, String", "internal/pointer/fragment.go: String, NewFragment"]}
{"id": "C103", "title": "Which pointer texts are accepted, and what they mean", "statement": "Parse accepts a text exactly if it is a URL by the grammar of net/url whose fragment is empty or begins with a slash, and the pointer has the scheme (in lower case), user information, host, path, query and fragment tokens that the grammar reads from the text, percent escapes decoded; it never panics. PkgPath is the host without its port (and without brackets), followed by the path.", "quantifier": "all texts", "why_tests_cant": "an equivalence over all texts: tests show only samples of accepted and rejected texts", "anchors": ["internal/pointer/pointer.go: Parse, PkgPath", "internal/pointer/fragment.go: NewFragment"]}
{"id": "C104", "title": "Type declarations nothing refers to do not matter", "statement": "The outcome of Scan - document, error or panic - depends only on the type declarations that objects of the visited packages refer to, directly or through other declarations, by elements, pointers and exported fields. Adding declarations, or changing the types of unexported fields or of map keys, changes nothing.", "quantifier": "all inputs of Scan, all pairs of sets of type declarations that agree on those referred to, all iteration orders", "why_tests_cant": "the claim compares two runs for every possible set of declarations, and the references between declarations may be cyclic and of any depth; a test compares a few", "anchors": ["internal/oapi/scan/types/types.go: walk, type2schema, collectStructFields, castInlineStruct", "internal/oapi/scan/types/scan.go: Scan, Resolve", "oapi.go: Scan"]}
{"id": "C105", "title": "What is not referred to does not matter to Resolve", "statement": "Resolve's outcome depends only on what the pointers it is asked for stand for and on their exports: entities and exports nothing refers to, directly or through other entities, change nothing. A resolution, or a scan, that succeeds is not changed by overrides for pointers that could not be resolved without them (pointers of another scheme).", "quantifier": "all documents, lookup functions, exports, iteration orders; all inputs of Scan", "why_tests_cant": "compares two runs for every document and every pair of lookup functions; references chain to any depth and may be cyclic", "anchors": ["internal/oapi/resolver/resolver.go: Resolve, iterator", "internal/oapi/scan/scan.go: Fn", "oapi.go: WithOverride, Scan"]}
{"id": "C106", "title": "Reading again what was written changes nothing", "statement": "The JSON form an accepted configuration (or any OpenAPI object) has in the document container - where numbers are doubles - can be read into the spec structs again, and is then written exactly as it was: the first reading and writing has put everything into its normal form. Needed: every reference in it can be read and is in the form it would be written in, every integer in it can be read (always so up to 2^53), and no link has a null request body. Refuted without these: a link's empty requestBody is written as null and then dropped; the largest int64 is written as 2^63, which cannot be read.", "quantifier": "all JSON documents and all struct types of the spec package and the configuration", "why_tests_cant": "unbounded nesting, all member spellings and number sizes", "anchors": ["internal/oapi/spec/*.go: struct tags", "internal/oapi/spec/any_or_expressions.go", "internal/oapi/spec/callback.go", "internal/oapi/config/config.go: Config"]}
{"id": "C107", "title": "The rest of a route pattern is a regular expression", "statement": "After its last variable a pattern may go on with any regular expression of characters, escapes, dots, anchors, classes (negated, ranges, bracket first, dash last), groups and the operators + and ? (lazy or not). Without alternatives outside of groups it must match the whole rest of the path; with them, the first alternative (which includes the variables) must match a beginning of the path, the last an end of it, the ones between anything in it. Every well-formed expression compiles, and matches what it means.", "quantifier": "all patterns, all well-formed regular expressions of the grammar, all paths", "why_tests_cant": "unbounded nesting of groups, lengths of patterns and paths", "anchors": ["internal/route/route.go: Match, compileCached"]}

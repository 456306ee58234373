NOTES = {
 "C08": "Any collision rule that returns canonical values; all map iteration orders.",
 "C09": "All iteration orders at all nesting levels; destination is an object.",
 "C13": "Documents containing NaN (possible in YAML only) are excluded: they are silently skipped by Merge (C14).",
 "C14": "The claim that big integers survive is refuted (C14_clone_large_refuted).",
 "C15": "Two entries printing the same key: the survivor depends on iteration order (C15_colliding_keys_refuted).",
 "C17": "Keys containing a dot: refuted by C17_dotted_key_refuted.",
 "C18": "Keys containing a dot: refuted by C18_dotted_keys_refuted.",
 "C19": "Two unlisted keys: order not determined (C19_two_unlisted_refuted).",
 "C23": "Documents (and schemas returned by the resolution function) that are themselves one reference are excluded, with a counterexample (C23_root_reference_refuted).",
 "C25": "The document must not already use the local text of an export, and the components section must not itself be an external reference. A component may come to refer to itself (C25_component_refers_to_itself).",
 "C28": "Negative property, proved by exhibiting two schedules.",
 "C30": "The value statement is for documents without exports.",
}
NOTES["C37"]="The tail after the last variable must contain no metacharacter (otherwise C39)."
NOTES["C39"]="Tails with '|' are characterised for patterns without variables (C39_alternatives). Regular-expression syntax outside the modelled subset is excluded by the hypothesis re_compile tail = Ok r."
NOTES["C40"]="The cache machine is generic in the compile function; regexp.MatchString itself is read-only and not part of the machine."
NOTES["C31"]="Sections holding scalars are excluded (C33). Documents are JSON values (numbers as decoded by encoding/json)."
NOTES["C34"]="Full statement for dot-free keys; when two patterns match one operation and disagree, the winner depends on map iteration order (C34_order_refuted). Default operations have no all-digit keys (true of spec.Operation)."
NOTES["C35"]="Provided no other operation of the document collides with the rewritten name."
NOTES["C36"]="The error is proved for patterns whose regular expression the model covers."
NOTES["C41"]="Meaning of the written text is given by C41_parts for plainly written tags and C41_parts_quoted for tags with quoted values (any text); C41_literal says which texts between the double quotes are accepted and what they mean (Go string literals, UTF-8); the general statement is relative to the part() reading of the tag machine."
NOTES["C43"]="Parametric in strconv.ParseFloat."
NOTES["C46"]="Every text is within the model; surrogate halves in Unicode escapes are errors, as since Go 1.18."

NOTES["C47"]="Every type has a finite closed set of types below it; collecting never exhausts a depth greater than its size, and the whole package scan likewise."
NOTES["C48"]="Exact characterisation of the registered (type, pointer text) pairs: simple trails from the object and from every declared type met. Names are go identifiers without the characters special in pointers (universal in Go)."
NOTES["C49"]="Registered pointers denote the type they are registered under, uniquely; lookup is independent of map iteration order."
NOTES["C50"]="Termination, exact success condition of Resolve (tags well formed, every visible field has a schema), and every $ref is registered, reachable and found again."
NOTES["C51"]="Exact records for each kind and each type name a tag can give; other kinds are Err."
NOTES["C52"]="Property names = visible fields; the order relation in_place; last field of a name wins; each property is the schema of its type overlaid with the tag's attributes."
NOTES["C53"]="Holds for all properties that are not references."
NOTES["C54"]="Exact list for distinct names; for arbitrary names only required non-struct fields are listed."
NOTES["C55"]="Exact records for slices, maps, arrays; pointers incl. the oneOf form."
NOTES["C56"]="For any two declarations with identical underlying struct there is an admissible sort order with which fields of the second refer to the first; example computed."
NOTES["C57"]="Resolve of an unregistered pointer panics; registered ones panic only through blank tags; collecting panics iff a universe type is reached."
NOTES["C58"]="For every scanner, iteration order and sort; import cycles through the order clause with 'unless the import leads back'. A nil package is not skipped (C58_nil_refuted)."
NOTES["C59"]="Error texts are not modelled."
NOTES["C60"]="Exact: parse succeeds iff the body denotes a command. Trailing blanks and newlines of the comment are dropped; doubled blanks are errors for :schema."
NOTES["C61"]="Negative property (the error is dropped)."
NOTES["C62"]="Two exports may share a name (C62_same_name_refuted)."
NOTES["C63"]="Directories without glob metacharacters; keys without '.' or '~' (C63_dotted_refuted shows the failure otherwise)."
NOTES["C20"]="encoding/json writing, reading, compacting (HTML escapes) and indenting and strconv.Quote are modelled byte by byte; printing and reading of single numbers are parameters assumed to be inverse on the numbers of the document (documents read by this program hold float64 only). Non-printable characters above 127 in top-level keys and the nesting limit are not modelled."
NOTES["C21"]="The Go lexer is modelled for raw string literals only."
NOTES["C64"]="encoding/json decoding into the configuration struct is modelled for the text fields; what decoding does with the other members (ok, type error, abort) is a parameter."
NOTES["C65"]="C65_never_stderr_refuted shows why the claim needs the configuration to be readable."
NOTES["C66"]="The fields of the configuration other than the text fields are compared as the document they are decoded from."
NOTES["C68"]="The operating system's answers (removal, opening, pieces in which data is written) are parameters; the text of log messages is not modelled."
NOTES["C74"]="Directory trees without symbolic links, Unix paths."
NOTES["C67"]="Proved for the whole modelled pipeline, with every map order and every answer of the surroundings; fuel exhaustion and panics of the model are excluded by the hypothesis that Scan returns."
NOTES["C76"]="Inputs: canonical specification files with plain keys that are objects and not themselves one reference, plain property names. C76_default_operation_refuted: the exception is real."
NOTES["C78"]="Options are represented by what they set; an Option of the caller's own is modelled only as one that fails."
NOTES["C79"]="strconv.Quote is modelled for single bytes."
NOTES["C80"]="Attributes the scanner never sets are not modelled; a non-finite number is represented by a number with no JSON text."
NOTES["C69"]="sort.Strings is any function returning a sorted permutation; url.Parse is the model of Url.v. The slice effect is modelled on backing arrays."
NOTES["C70"]="Maps as option (nil) of sorted association lists; pointers stand for their targets."
NOTES["C72"]="encoding/json's compaction and validity are modelled byte by byte (JsonText.v, AnyJson.v); path items of callbacks are abstract with an arbitrary encoder/decoder pair that round-trips. C72_into reads into a union that is not empty; C72_callback_members reads objects whose names repeat or include $ref more than once."
NOTES["C73"]="strings.ToLower modelled exactly as far as an ASCII result goes."
NOTES["C81"]="strconv.Unquote without the escapes \\x, \\U and octal (not JSON); non-printable non-ASCII in %q not modelled."
NOTES["C82"]="Numbers are read by an arbitrary function; surrogate escapes are (C82_pair, C82_lone); the nesting limit is not."
NOTES["C22"]="Heap model (HeapCont.v): maps and slices are cells, containers hold references, nothing is copied unless the code copies it; compared with the value model over all programs (Spec_Heap.run/vrun). Slice append always allocates. The argument conversion mmap is modelled separately (HeapMmap.v)."
NOTES["C77"]="Inputs as for C76; root sections are objects or lists, default operations are objects with decoded numbers, exported names are plain. The import graph is followed to the end (fuel exceeds the number of packages)."
NOTES["C83"]="Inputs as for C76; both files free of non-finite numbers (such files are dropped, see C77)."
NOTES["C84"]="For documents and entities in which an object holding an external reference has no other reference inside (lonely), whose keys are plain, and which are not themselves one reference; exported names plain; external references and exported components at different places."
NOTES["C85"]="Inputs as for C77. Locations at, above or below other external references or exported components are excluded; the 'no other property' part is not claimed inside operations, where default operations may add members. A field type that refers to another struct is covered by C84 (expansion), not shown here."
NOTES["C86"]="Heap model of Schema (Builders.v): append in place with any growth; slices start at cell 0 of their array; number pointers are values (never written through); Ref, nullable, deprecated and discriminator have no builder method. The value a schema points to is shown as the pointer."
NOTES["C87"]="Byte arrays; the spare capacity of the runtime is arbitrary."
NOTES["C88"]="Fields the constructors and methods do not touch are left out."
NOTES["C89"]="Values instead of texts (texts: C82, C87). An object that has a member of its kind twice, in two spellings, is excluded (encoding/json would decode the second into what the first left). Letter case: ASCII only (encoding/json also folds U+017F and U+212A). Which digits are written for whole doubles beyond 2^53 is an arbitrary function that reads back to the same double."
NOTES["C90"]="Composition of Config.v, Shape.v and Scan.v (ConfigScan.v). Keys without dots are required in the common sections and in the overriding schemas (names of overrides and patterns are free), references inside them must be into the document. Marshalling the overrides and operations is done before the scan, not where they are used. When decoding fails main goes on with what was decoded: left open (partial)."
NOTES["C91"]="The depths (fuel) of Scan.v do not show: C91_depths_do_not_show. Sufficient conditions for coming to an end are spelled out in Spec_Ends.v; termination of each stage: package visiting, type walking, schema conversion, inlining, resolving. Assumes that file readers return."
NOTES["C92"]="Struct values are those of Shape.v (given by their fields); documents are what json.Marshal writes for them."
NOTES["C93"]="The resolution function is any function; an error or panic of it is excluded by the hypothesis that each pointer asked about has a value."
NOTES["C94"]="Conditions in Spec_ScanOk.v (in_order), stated in terms of packages, files, options and types; the returned error flag is set even then, as C67 says (newOAPI decodes an object into a string)."
NOTES["C95"]="C95_order_does_not_show (agreement by location outside the exported components), C95_same_document (no exports: equal documents), C95_conditions (differing pairs of runs without each condition). Conditions in Spec_Same.v."
NOTES["C96"]="C96_asked_is_found, C96_reached_is_component, C96_unreached_is_kept. Entities are tidy and lonely (references alone in their objects) and determined by the text of the pointer; no reference of the document is in the way of the component."
NOTES["C97"]="C97_order_does_not_show, C97_conditions (differing pairs of runs without each condition). Conditions in Spec_Reach.v."
NOTES["C98"]="C98_order_does_not_show (equal documents), C98_one_name_refuted. Conditions in Spec_Same.v and Spec_SameAll.v; C98_example: an exported type that refers to itself."
NOTES["C99"]="C99_same_file (same bytes), C99_same_document (what any run writes reads back to the one document), C99_two_others_refuted. C99_example: all conditions hold, and the run."
NOTES["C100"]="origin/source_of in Spec_Origin.v list the possible origins, location by location; for objects only the location is claimed, for every other value its content. Within what replaces a reference or is a component the content is the matter of C85-C98."
NOTES["C101"]="same_around in Spec_Unseen.v says which differences between two surroundings are allowed; the claim is equality of the whole outcome, without any assumption on the inputs. ar_env (the Go type declarations as go/types presents them) is the same on both sides."
NOTES["C102"]="usual_pointer and same_pointer are in Spec_Url.v; u_rawpath, a hint url.URL keeps for printing, is not compared (the printed text is). User information and IPv6 addresses with zones are modelled (Url.v). The refuted statements show what the conditions on paths and zones exclude."
NOTES["C103"]="url_reads in Spec_Url.v is the grammar, written without the functions of Url.v (only character classes are shared); it covers user information, ports and IPv6 addresses with zones."
NOTES["C104"]="References (part, refers in Spec_Unref.v) are read off the declarations alone. The condition on ch_points says that the iteration of the map of types is a permutation of it. C104_referred_refuted: a declaration that is referred to does matter."
NOTES["C105"]="C105_more_answers and C105_unneeded_overrides have no other conditions. C105_go_override_refuted: an override for a Go pointer that is referred to does matter."
NOTES["C106"]="C106_again holds for every kind of value, so for the configuration, the document and each part; C106_integers has no condition but that the number can be read twice. reads_back (as in C89): the digits of a large double read back to it."
NOTES["C107"]="The grammar (rx, rx_text, rx_ok) and its meaning (means) are in Spec_Tail.v and do not mention the compiler of Regex.v. ASCII expressions; counted repetition, escape classes and flags are not in the grammar (see DESIGN.md on Regex.v)."
STATUS = {}

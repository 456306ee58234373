{
 "claims": [
  {
   "property": "C01",
   "status": "proved",
   "theorems": [
    "C01_fragment_text_roundtrip",
    "C01_fragment_text_injective"
   ],
   "note": ""
  },
  {
   "property": "C02",
   "status": "proved",
   "theorems": [
    "C02_accepted_texts",
    "C02_prints_back_iff_canonical",
    "C02_reparse_stable",
    "C02_never_panics"
   ],
   "note": ""
  },
  {
   "property": "C03",
   "status": "proved",
   "theorems": [
    "C03_descendant",
    "C03_descendant_of_text",
    "C03_ends"
   ],
   "note": ""
  },
  {
   "property": "C04",
   "status": "proved",
   "theorems": [
    "C04_full_sources_never_alias",
    "C04_parsed_is_full",
    "C04_clone_is_full",
    "C04_spare_capacity_refuted"
   ],
   "note": ""
  },
  {
   "property": "C05",
   "status": "proved",
   "theorems": [
    "C05_replace"
   ],
   "note": ""
  },
  {
   "property": "C06",
   "status": "proved",
   "theorems": [
    "C06_go_pointer_roundtrip",
    "C06_text_identifies",
    "C06_new_go_pointer",
    "C06_clone",
    "C06_percent_refuted",
    "C06_percent_parse_refuted"
   ],
   "note": ""
  },
  {
   "property": "C07",
   "status": "proved",
   "theorems": [
    "C07_merge_right_biased",
    "C07_new_pointers"
   ],
   "note": ""
  },
  {
   "property": "C08",
   "status": "proved",
   "theorems": [
    "C08_merge_is_keywise",
    "C08_merge_total",
    "C08_rules_good"
   ],
   "note": "Any collision rule that returns canonical values; all map iteration orders."
  },
  {
   "property": "C09",
   "status": "proved",
   "theorems": [
    "C09_iteration_order_irrelevant"
   ],
   "note": "All iteration orders at all nesting levels; destination is an object."
  },
  {
   "property": "C10",
   "status": "proved",
   "theorems": [
    "C10_default_keeps_destination",
    "C10_override_source_wins",
    "C10_self_merge",
    "C10_default_override_dual"
   ],
   "note": ""
  },
  {
   "property": "C11",
   "status": "proved",
   "theorems": [
    "C11_strict_merge",
    "C11_strict_commutes"
   ],
   "note": ""
  },
  {
   "property": "C12",
   "status": "proved",
   "theorems": [
    "C12_discovery_order_irrelevant"
   ],
   "note": ""
  },
  {
   "property": "C13",
   "status": "proved",
   "theorems": [
    "C13_two_specs_never_merge"
   ],
   "note": "Documents containing NaN (possible in YAML only) are excluded: they are silently skipped by Merge (C14)."
  },
  {
   "property": "C14",
   "status": "proved",
   "theorems": [
    "C14_clone_keeps_all_but_numbers",
    "C14_clone_exact_below_2_53",
    "C14_clone_large_refuted",
    "C14_clone_idempotent",
    "C14_nan_does_not_clone",
    "C14_nan_clone_is_null",
    "C14_nan_merge_does_nothing"
   ],
   "note": "The claim that big integers survive is refuted (C14_clone_large_refuted)."
  },
  {
   "property": "C15",
   "status": "proved",
   "theorems": [
    "C15_conversion",
    "C15_no_interface_maps",
    "C15_result_is_json",
    "C15_twice_is_once",
    "C15_order_irrelevant",
    "C15_colliding_keys_refuted"
   ],
   "note": "Two entries printing the same key: the survivor depends on iteration order (C15_colliding_keys_refuted)."
  },
  {
   "property": "C16",
   "status": "proved",
   "theorems": [
    "C16_setp",
    "C16_existing_location"
   ],
   "note": ""
  },
  {
   "property": "C17",
   "status": "proved",
   "theorems": [
    "C17_extract_key",
    "C17_reported_path_reads_back",
    "C17_dotted_key_refuted"
   ],
   "note": "Keys containing a dot: refuted by C17_dotted_key_refuted."
  },
  {
   "property": "C18",
   "status": "proved",
   "theorems": [
    "C18_dot_path_of_keys",
    "C18_what_is_read_back",
    "C18_dotted_keys_refuted"
   ],
   "note": "Keys containing a dot: refuted by C18_dotted_keys_refuted."
  },
  {
   "property": "C19",
   "status": "proved",
   "theorems": [
    "C19_emission",
    "C19_unique_with_one_unlisted",
    "C19_two_unlisted_refuted"
   ],
   "note": "Two unlisted keys: order not determined (C19_two_unlisted_refuted)."
  },
  {
   "property": "C20",
   "status": "proved",
   "theorems": [
    "C20_json_reads_back",
    "C20_fails_iff",
    "C20_unknown_format"
   ],
   "note": "encoding/json writing, reading, compacting (HTML escapes) and indenting and strconv.Quote are modelled byte by byte; printing and reading of single numbers are parameters assumed to be inverse on the numbers of the document (documents read by this program hold float64 only). Non-printable characters above 127 in top-level keys and the nesting limit are not modelled."
  },
  {
   "property": "C21",
   "status": "proved",
   "theorems": [
    "C21_go_constant",
    "C21_constant_parses"
   ],
   "note": "The Go lexer is modelled for raw string literals only."
  },
  {
   "property": "C22",
   "status": "proved",
   "theorems": [
    "C22_history",
    "C22_nothing_shared",
    "C22_sources_untouched",
    "C22_merge_by_value",
    "C22_conversion_writes_nothing",
    "C22_argument_changed_refuted"
   ],
   "note": "Heap model (HeapCont.v): maps and slices are cells, containers hold references, nothing is copied unless the code copies it; compared with the value model over all programs (Spec_Heap.run/vrun). Slice append always allocates. The argument conversion mmap is modelled separately (HeapMmap.v)."
  },
  {
   "property": "C23",
   "status": "proved",
   "theorems": [
    "C23_no_external_reference_left",
    "C23_root_reference_refuted"
   ],
   "note": "Documents (and schemas returned by the resolution function) that are themselves one reference are excluded, with a counterexample (C23_root_reference_refuted)."
  },
  {
   "property": "C24",
   "status": "proved",
   "theorems": [
    "C24_only_references_and_components_change"
   ],
   "note": ""
  },
  {
   "property": "C25",
   "status": "proved",
   "theorems": [
    "C25_written_references_resolve",
    "C25_component_refers_to_itself"
   ],
   "note": "The document must not already use the local text of an export, and the components section must not itself be an external reference. A component may come to refer to itself (C25_component_refers_to_itself)."
  },
  {
   "property": "C26",
   "status": "proved",
   "theorems": [
    "C26_resolution_terminates",
    "C26_depth_irrelevant"
   ],
   "note": ""
  },
  {
   "property": "C27",
   "status": "proved",
   "theorems": [
    "C27_resolution_is_substitution",
    "C27_order_irrelevant_without_exports"
   ],
   "note": ""
  },
  {
   "property": "C28",
   "status": "proved",
   "theorems": [
    "C28_output_depends_on_iteration_order"
   ],
   "note": "Negative property, proved by exhibiting two schedules."
  },
  {
   "property": "C29",
   "status": "proved",
   "theorems": [
    "C29_stored_where_referenced",
    "C29_dotted_name_differs",
    "C29_slashed_name_differs"
   ],
   "note": ""
  },
  {
   "property": "C30",
   "status": "proved",
   "theorems": [
    "C30_override_wins",
    "C30_unknown_scheme_fails",
    "C30_every_reference_looked_up"
   ],
   "note": "The value statement is for documents without exports."
  },
  {
   "property": "C31",
   "status": "proved",
   "theorems": [
    "C31_sections",
    "C31_meaning",
    "C31_order_does_not_show"
   ],
   "note": "Sections holding scalars are excluded (C33). Documents are JSON values (numbers as decoded by encoding/json)."
  },
  {
   "property": "C32",
   "status": "proved",
   "theorems": [
    "C32_lists_lost"
   ],
   "note": ""
  },
  {
   "property": "C33",
   "status": "proved",
   "theorems": [
    "C33_scalar_section_panics",
    "C33_scalar_info_panics"
   ],
   "note": ""
  },
  {
   "property": "C34",
   "status": "proved",
   "theorems": [
    "C34_defaults",
    "C34_kept",
    "C34_succeeds",
    "C34_order_refuted"
   ],
   "note": "Full statement for dot-free keys; when two patterns match one operation and disagree, the winner depends on map iteration order (C34_order_refuted). Default operations have no all-digit keys (true of spec.Operation)."
  },
  {
   "property": "C35",
   "status": "proved",
   "theorems": [
    "C35_phantom_path"
   ],
   "note": "Provided no other operation of the document collides with the rewritten name."
  },
  {
   "property": "C36",
   "status": "proved",
   "theorems": [
    "C36_every_key_listed",
    "C36_path_level_field_fails"
   ],
   "note": "The error is proved for patterns whose regular expression the model covers."
  },
  {
   "property": "C37",
   "status": "proved",
   "theorems": [
    "C37_pattern_match",
    "C37_slash"
   ],
   "note": "The tail after the last variable must contain no metacharacter (otherwise C39)."
  },
  {
   "property": "C38",
   "status": "proved",
   "theorems": [
    "C38_method",
    "C38_no_method"
   ],
   "note": ""
  },
  {
   "property": "C39",
   "status": "proved",
   "theorems": [
    "C39_raw_tail",
    "C39_alternatives",
    "C39_unbalanced",
    "C39_short_name"
   ],
   "note": "Tails with '|' are characterised for patterns without variables (C39_alternatives). Regular-expression syntax outside the modelled subset is excluded by the hypothesis re_compile tail = Ok r."
  },
  {
   "property": "C40",
   "status": "proved",
   "theorems": [
    "C40_transparent",
    "C40_cache_sound",
    "C40_exclusive",
    "C40_progress",
    "C40_terminates"
   ],
   "note": "The cache machine is generic in the compile function; regexp.MatchString itself is read-only and not part of the machine."
  },
  {
   "property": "C41",
   "status": "proved",
   "theorems": [
    "C41_ignore",
    "C41_parts",
    "C41_parts_quoted",
    "C41_literal",
    "C41_ignore_written"
   ],
   "note": "Meaning of the written text is given by C41_parts for plainly written tags and C41_parts_quoted for tags with quoted values (any text); C41_literal says which texts between the double quotes are accepted and what they mean (Go string literals, UTF-8); the general statement is relative to the part() reading of the tag machine."
  },
  {
   "property": "C42",
   "status": "proved",
   "theorems": [
    "C42_name"
   ],
   "note": ""
  },
  {
   "property": "C43",
   "status": "proved",
   "theorems": [
    "C43_options",
    "C43_no_oapi",
    "C43_mulof_never_set"
   ],
   "note": "Parametric in strconv.ParseFloat."
  },
  {
   "property": "C44",
   "status": "proved",
   "theorems": [
    "C44_errors",
    "C44_written",
    "C44_flags_swallowed"
   ],
   "note": ""
  },
  {
   "property": "C45",
   "status": "proved",
   "theorems": [
    "C45_omitempty",
    "C45_json_only"
   ],
   "note": ""
  },
  {
   "property": "C46",
   "status": "proved",
   "theorems": [
    "C46_blank_panics",
    "C46_total"
   ],
   "note": "Every text is within the model; surrogate halves in Unicode escapes are errors, as since Go 1.18."
  },
  {
   "property": "C47",
   "status": "proved",
   "theorems": [
    "C47_terminates",
    "C47_scan_terminates"
   ],
   "note": "Every type has a finite closed set of types below it; collecting never exhausts a depth greater than its size, and the whole package scan likewise."
  },
  {
   "property": "C48",
   "status": "proved",
   "theorems": [
    "C48_registered",
    "C48_reachable",
    "C48_scan"
   ],
   "note": "Exact characterisation of the registered (type, pointer text) pairs: simple trails from the object and from every declared type met. Names are go identifiers without the characters special in pointers (universal in Go)."
  },
  {
   "property": "C49",
   "status": "proved",
   "theorems": [
    "C49_denotes",
    "C49_unique"
   ],
   "note": "Registered pointers denote the type they are registered under, uniquely; lookup is independent of map iteration order."
  },
  {
   "property": "C50",
   "status": "proved",
   "theorems": [
    "C50_terminates",
    "C50_references",
    "C50_resolve_struct",
    "C50_resolve_other"
   ],
   "note": "Termination, exact success condition of Resolve (tags well formed, every visible field has a schema), and every $ref is registered, reachable and found again."
  },
  {
   "property": "C51",
   "status": "proved",
   "theorems": [
    "C51_basic",
    "C51_rejected",
    "C51_named"
   ],
   "note": "Exact records for each kind and each type name a tag can give; other kinds are Err."
  },
  {
   "property": "C52",
   "status": "proved",
   "theorems": [
    "C52_names",
    "C52_fields",
    "C52_struct_field"
   ],
   "note": "Property names = visible fields; the order relation in_place; last field of a name wins; each property is the schema of its type overlaid with the tag's attributes."
  },
  {
   "property": "C53",
   "status": "proved",
   "theorems": [
    "C53_attributes"
   ],
   "note": "Holds for all properties that are not references."
  },
  {
   "property": "C54",
   "status": "proved",
   "theorems": [
    "C54_required",
    "C54_only_required"
   ],
   "note": "Exact list for distinct names; for arbitrary names only required non-struct fields are listed."
  },
  {
   "property": "C55",
   "status": "proved",
   "theorems": [
    "C55_containers",
    "C55_pointers"
   ],
   "note": "Exact records for slices, maps, arrays; pointers incl. the oneOf form."
  },
  {
   "property": "C56",
   "status": "proved",
   "theorems": [
    "C56_conflated"
   ],
   "note": "For any two declarations with identical underlying struct there is an admissible sort order with which fields of the second refer to the first; example computed."
  },
  {
   "property": "C57",
   "status": "proved",
   "theorems": [
    "C57_resolve",
    "C57_collect",
    "C57_error_field"
   ],
   "note": "Resolve of an unregistered pointer panics; registered ones panic only through blank tags; collecting panics iff a universe type is reached."
  },
  {
   "property": "C58",
   "status": "proved",
   "theorems": [
    "C58_order",
    "C58_acyclic",
    "C58_nil_refuted"
   ],
   "note": "For every scanner, iteration order and sort; import cycles through the order clause with 'unless the import leads back'. A nil package is not skipped (C58_nil_refuted)."
  },
  {
   "property": "C59",
   "status": "proved",
   "theorems": [
    "C59_message",
    "C59_message_tells",
    "C59_message_all",
    "C59_message_refuted",
    "C59_errors"
   ],
   "note": "Error texts are not modelled."
  },
  {
   "property": "C60",
   "status": "proved",
   "theorems": [
    "C60_comments",
    "C60_comments_total",
    "C60_command",
    "C60_local_schema",
    "C60_package"
   ],
   "note": "Exact: parse succeeds iff the body denotes a command. Trailing blanks and newlines of the comment are dropped; doubled blanks are errors for :schema."
  },
  {
   "property": "C61",
   "status": "proved",
   "theorems": [
    "C61_malformed_accepted"
   ],
   "note": "Negative property (the error is dropped)."
  },
  {
   "property": "C62",
   "status": "proved",
   "theorems": [
    "C62_exports",
    "C62_in_order",
    "C62_pointers",
    "C62_same_name_refuted"
   ],
   "note": "Two exports may share a name (C62_same_name_refuted)."
  },
  {
   "property": "C63",
   "status": "proved",
   "theorems": [
    "C63_absolute",
    "C63_spec_file",
    "C63_local",
    "C63_dotted_refuted"
   ],
   "note": "Directories without glob metacharacters; keys without '.' or '~' (C63_dotted_refuted shows the failure otherwise)."
  },
  {
   "property": "C64",
   "status": "proved",
   "theorems": [
    "C64_directory_and_format",
    "C64_file_settings",
    "C64_flags_only"
   ],
   "note": "encoding/json decoding into the configuration struct is modelled for the text fields; what decoding does with the other members (ok, type error, abort) is a parameter."
  },
  {
   "property": "C65",
   "status": "proved",
   "theorems": [
    "C65_output",
    "C65_stream_flag_ignored",
    "C65_never_stderr_refuted"
   ],
   "note": "C65_never_stderr_refuted shows why the claim needs the configuration to be readable."
  },
  {
   "property": "C66",
   "status": "proved",
   "theorems": [
    "C66_fills_missing_leaves",
    "C66_settings",
    "C66_one_level",
    "C66_missing_file",
    "C66_nan_silently_empty"
   ],
   "note": "The fields of the configuration other than the text fields are compared as the document they are decoded from."
  },
  {
   "property": "C67",
   "status": "proved",
   "theorems": [
    "C67_scan_never_succeeds"
   ],
   "note": "Proved for the whole modelled pipeline, with every map order and every answer of the surroundings; fuel exhaustion and panics of the model are excluded by the hypothesis that Scan returns."
  },
  {
   "property": "C68",
   "status": "proved",
   "theorems": [
    "C68_output_replaced",
    "C68_early_failure_writes_null",
    "C68_silent_by_default",
    "C68_streams"
   ],
   "note": "The operating system's answers (removal, opening, pieces in which data is written) are parameters; the text of log messages is not modelled."
  },
  {
   "property": "C74",
   "status": "proved",
   "theorems": [
    "C74_clean",
    "C74_clean_shortest_unchanged",
    "C74_absolute",
    "C74_dir"
   ],
   "note": "Directory trees without symbolic links, Unix paths."
  },
  {
   "property": "C75",
   "status": "proved",
   "theorems": [
    "C75_module_package",
    "C75_module_without_directory",
    "C75_gopath_without_src"
   ],
   "note": ""
  },
  {
   "property": "C69",
   "status": "proved",
   "theorems": [
    "C69_remove_duplicates",
    "C69_servers",
    "C69_error",
    "C69_callers_slice",
    "C69_argument_kept_refuted"
   ],
   "note": "sort.Strings is any function returning a sorted permutation; url.Parse is the model of Url.v. The slice effect is modelled on backing arrays."
  },
  {
   "property": "C70",
   "status": "proved",
   "theorems": [
    "C70_one_call",
    "C70_chain",
    "C70_description",
    "C70_nil_removes_refuted"
   ],
   "note": "Maps as option (nil) of sorted association lists; pointers stand for their targets."
  },
  {
   "property": "C71",
   "status": "proved",
   "theorems": [
    "C71_sections",
    "C71_header_has_no_section"
   ],
   "note": ""
  },
  {
   "property": "C72",
   "status": "proved",
   "theorems": [
    "C72_any",
    "C72_decode_encode",
    "C72_into",
    "C72_into_fails",
    "C72_expression",
    "C72_nil",
    "C72_fails_iff",
    "C72_string_any_refuted",
    "C72_empty_string_refuted",
    "C72_callback_map",
    "C72_callback_ref",
    "C72_callback_nil",
    "C72_callback_key_refuted",
    "C72_callback_members",
    "C72_callback_kinds"
   ],
   "note": "encoding/json's compaction and validity are modelled byte by byte (JsonText.v, AnyJson.v); path items of callbacks are abstract with an arbitrary encoder/decoder pair that round-trips. C72_into reads into a union that is not empty; C72_callback_members reads objects whose names repeat or include $ref more than once."
  },
  {
   "property": "C73",
   "status": "proved",
   "theorems": [
    "C73_levels",
    "C73_ascii"
   ],
   "note": "strings.ToLower modelled exactly as far as an ASCII result goes."
  },
  {
   "property": "C76",
   "status": "proved",
   "theorems": [
    "C76_references_come_from_default_operations",
    "C76_no_external_reference",
    "C76_default_operation_refuted"
   ],
   "note": "Inputs: canonical specification files with plain keys that are objects and not themselves one reference, plain property names. C76_default_operation_refuted: the exception is real."
  },
  {
   "property": "C78",
   "status": "proved",
   "theorems": [
    "C78_last_wins",
    "C78_kinds_commute",
    "C78_log_ignored",
    "C78_failing_option",
    "C78_directory",
    "C78_working_directory"
   ],
   "note": "Options are represented by what they set; an Option of the caller's own is modelled only as one that fails."
  },
  {
   "property": "C79",
   "status": "proved",
   "theorems": [
    "C79_pointer_json"
   ],
   "note": "strconv.Quote is modelled for single bytes."
  },
  {
   "property": "C80",
   "status": "proved",
   "theorems": [
    "C80_members",
    "C80_exists"
   ],
   "note": "Attributes the scanner never sets are not modelled; a non-finite number is represented by a number with no JSON text."
  },
  {
   "property": "C81",
   "status": "proved",
   "theorems": [
    "C81_marshalled_reference",
    "C81_go_reference",
    "C81_json_string",
    "C81_quoted_text",
    "C81_escaped_slash_refuted",
    "C81_non_string_refuted"
   ],
   "note": "strconv.Unquote without the escapes \\x, \\U and octal (not JSON); non-printable non-ASCII in %q not modelled."
  },
  {
   "property": "C82",
   "status": "proved",
   "theorems": [
    "C82_grammar",
    "C82_compact",
    "C82_strings",
    "C82_pair",
    "C82_lone"
   ],
   "note": "Numbers are read by an arbitrary function; surrogate escapes are (C82_pair, C82_lone); the nesting limit is not."
  },
  {
   "property": "C77",
   "status": "proved",
   "theorems": [
    "C77_spec_file_survives",
    "C77_infinite_number_refuted"
   ],
   "note": "Inputs as for C76; root sections are objects or lists, default operations are objects with decoded numbers, exported names are plain. The import graph is followed to the end (fuel exceeds the number of packages)."
  },
  {
   "property": "C83",
   "status": "proved",
   "theorems": [
    "C83_overlapping_files_fail",
    "C83_two_spec_files_fail"
   ],
   "note": "Inputs as for C76; both files free of non-finite numbers (such files are dropped, see C77)."
  },
  {
   "property": "C84",
   "status": "proved",
   "theorems": [
    "C84_reference_becomes_expansion",
    "C84_reference_becomes_local",
    "C84_component_holds_expansion",
    "C84_entity_values_at_reference",
    "C84_entity_values_in_component",
    "C84_component_with_exported_references",
    "C84_order_affects_components_only"
   ],
   "note": "For documents and entities in which an object holding an external reference has no other reference inside (lonely), whose keys are plain, and which are not themselves one reference; exported names plain; external references and exported components at different places."
  },
  {
   "property": "C85",
   "status": "proved",
   "theorems": [
    "C85_root_is_carried",
    "C85_default_operations_are_added",
    "C85_overrides_are_put_in_place",
    "C85_exported_references_become_local",
    "C85_exported_overrides_are_components",
    "C85_structs_are_put_in_place",
    "C85_exported_structs_are_components",
    "C85_exported_types_are_walked",
    "C85_commands_alone_add_nothing"
   ],
   "note": "Inputs as for C77. Locations at, above or below other external references or exported components are excluded; the 'no other property' part is not claimed inside operations, where default operations may add members. A field type that refers to another struct is covered by C84 (expansion), not shown here."
  },
  {
   "property": "C86",
   "status": "proved",
   "theorems": [
    "C86_one_call",
    "C86_programs",
    "C86_last_call_wins",
    "C86_shared_map_is_seen",
    "C86_spare_capacity_refuted",
    "C86_caller_map_changed_refuted",
    "C86_own_lists_refuted"
   ],
   "note": "Heap model of Schema (Builders.v): append in place with any growth; slices start at cell 0 of their array; number pointers are values (never written through); Ref, nullable, deprecated and discriminator have no builder method. The value a schema points to is shown as the pointer."
  },
  {
   "property": "C87",
   "status": "proved",
   "theorems": [
    "C87_decoded",
    "C87_others_kept",
    "C87_same_array_overwritten",
    "C87_shared_example_refuted"
   ],
   "note": "Byte arrays; the spare capacity of the runtime is arbitrary."
  },
  {
   "property": "C88",
   "status": "proved",
   "theorems": [
    "C88_parameters",
    "C88_header_cookie_required_refuted",
    "C88_security_schemes",
    "C88_oauth2_refuted",
    "C88_date_formats_refuted"
   ],
   "note": "Fields the constructors and methods do not touch are left out."
  },
  {
   "property": "C89",
   "status": "proved",
   "theorems": [
    "C89_accepts",
    "C89_writes",
    "C89_kept",
    "C89_nothing_invented",
    "C89_references",
    "C89_unknown_dropped",
    "C89_scopes_refuted",
    "C89_path_item_ref_refuted",
    "C89_additional_properties_bool_refuted",
    "C89_references_gain_members_refuted",
    "C89_nulls"
   ],
   "note": "Values instead of texts (texts: C82, C87). An object that has a member of its kind twice, in two spellings, is excluded (encoding/json would decode the second into what the first left). Letter case: ASCII only (encoding/json also folds U+017F and U+212A). Which digits are written for whole doubles beyond 2^53 is an arbitrary function that reads back to the same double."
  },
  {
   "property": "C90",
   "status": "proved",
   "theorems": [
    "C90_configuration_accepted",
    "C90_sections",
    "C90_operations",
    "C90_overrides",
    "C90_others_ignored",
    "C90_servers_refuted"
   ],
   "note": "Composition of Config.v, Shape.v and Scan.v (ConfigScan.v). Keys without dots are required in the common sections and in the overriding schemas (names of overrides and patterns are free), references inside them must be into the document. Marshalling the overrides and operations is done before the scan, not where they are used. When decoding fails main goes on with what was decoded: left open (partial)."
  },
  {
   "property": "C91",
   "status": "proved",
   "theorems": [
    "C91_depths_do_not_show",
    "C91_comes_to_an_end",
    "C91_failing_start_is_an_error",
    "C91_root_reference_refuted",
    "C91_unknown_type_refuted"
   ],
   "note": "The depths (fuel) of Scan.v do not show: C91_depths_do_not_show. Sufficient conditions for coming to an end are spelled out in Spec_Ends.v; termination of each stage: package visiting, type walking, schema conversion, inlining, resolving. Assumes that file readers return."
  },
  {
   "property": "C92",
   "status": "proved",
   "theorems": [
    "C92_xml",
    "C92_headers",
    "C92_header_not_required",
    "C92_bodies",
    "C92_bodies_without_schema",
    "C92_new_components_maps",
    "C92_new_components",
    "C92_operations"
   ],
   "note": "Struct values are those of Shape.v (given by their fields); documents are what json.Marshal writes for them."
  },
  {
   "property": "C93",
   "status": "proved",
   "theorems": [
    "C93_resolve_succeeds"
   ],
   "note": "The resolution function is any function; an error or panic of it is excluded by the hypothesis that each pointer asked about has a value."
  },
  {
   "property": "C94",
   "status": "proved",
   "theorems": [
    "C94_builds_a_document",
    "C94_conditions"
   ],
   "note": "Conditions in Spec_ScanOk.v (in_order), stated in terms of packages, files, options and types; the returned error flag is set even then, as C67 says (newOAPI decodes an object into a string)."
  },
  {
   "property": "C95",
   "status": "proved",
   "theorems": [
    "C95_order_does_not_show",
    "C95_same_document",
    "C95_conditions"
   ],
   "note": "C95_order_does_not_show (agreement by location outside the exported components), C95_same_document (no exports: equal documents), C95_conditions (differing pairs of runs without each condition). Conditions in Spec_Same.v."
  },
  {
   "property": "C96",
   "status": "proved",
   "theorems": [
    "C96_asked_is_found",
    "C96_reached_is_component",
    "C96_unreached_is_kept"
   ],
   "note": "C96_asked_is_found, C96_reached_is_component, C96_unreached_is_kept. Entities are tidy and lonely (references alone in their objects) and determined by the text of the pointer; no reference of the document is in the way of the component."
  },
  {
   "property": "C97",
   "status": "proved",
   "theorems": [
    "C97_order_does_not_show",
    "C97_conditions"
   ],
   "note": "C97_order_does_not_show, C97_conditions (differing pairs of runs without each condition). Conditions in Spec_Reach.v."
  },
  {
   "property": "C98",
   "status": "proved",
   "theorems": [
    "C98_order_does_not_show",
    "C98_one_name_refuted"
   ],
   "note": "C98_order_does_not_show (equal documents), C98_one_name_refuted. Conditions in Spec_Same.v and Spec_SameAll.v; C98_example: an exported type that refers to itself."
  },
  {
   "property": "C99",
   "status": "proved",
   "theorems": [
    "C99_same_file",
    "C99_same_document",
    "C99_two_others_refuted"
   ],
   "note": "C99_same_file (same bytes), C99_same_document (what any run writes reads back to the one document), C99_two_others_refuted. C99_example: all conditions hold, and the run."
  },
  {
   "property": "C100",
   "status": "proved",
   "theorems": [
    "C100_everything_has_an_origin",
    "C100_operations",
    "C100_paths",
    "C100_components",
    "C100_plain_values"
   ],
   "note": "origin/source_of in Spec_Origin.v list the possible origins, location by location; for objects only the location is claimed, for every other value its content. Within what replaces a reference or is a component the content is the matter of C85-C98."
  },
  {
   "property": "C101",
   "status": "proved",
   "theorems": [
    "C101_unseen_does_not_matter",
    "C101_unreadable_refuted"
   ],
   "note": "same_around in Spec_Unseen.v says which differences between two surroundings are allowed; the claim is equality of the whole outcome, without any assumption on the inputs. ar_env (the Go type declarations as go/types presents them) is the same on both sides."
  },
  {
   "property": "C102",
   "status": "proved",
   "theorems": [
    "C102_clone",
    "C102_text_roundtrip",
    "C102_text_identifies",
    "C102_clone_panics_refuted",
    "C102_clone_changes_refuted",
    "C102_clone_zone_refuted"
   ],
   "note": "usual_pointer and same_pointer are in Spec_Url.v; u_rawpath, a hint url.URL keeps for printing, is not compared (the printed text is). User information and IPv6 addresses with zones are modelled (Url.v). The refuted statements show what the conditions on paths and zones exclude."
  },
  {
   "property": "C103",
   "status": "proved",
   "theorems": [
    "C103_pointer_texts",
    "C103_never_panics",
    "C103_pkg_path",
    "C103_pkg_path_plain",
    "C103_pkg_path_brackets"
   ],
   "note": "url_reads in Spec_Url.v is the grammar, written without the functions of Url.v (only character classes are shared); it covers user information, ports and IPv6 addresses with zones."
  },
  {
   "property": "C104",
   "status": "proved",
   "theorems": [
    "C104_unreferred_does_not_matter",
    "C104_added_declarations",
    "C104_referred_refuted"
   ],
   "note": "References (part, refers in Spec_Unref.v) are read off the declarations alone. The condition on ch_points says that the iteration of the map of types is a permutation of it. C104_referred_refuted: a declaration that is referred to does matter."
  },
  {
   "property": "C105",
   "status": "proved",
   "theorems": [
    "C105_only_what_is_referred_to",
    "C105_more_answers",
    "C105_unneeded_overrides",
    "C105_go_override_refuted"
   ],
   "note": "C105_more_answers and C105_unneeded_overrides have no other conditions. C105_go_override_refuted: an override for a Go pointer that is referred to does matter."
  },
  {
   "property": "C106",
   "status": "proved",
   "theorems": [
    "C106_again",
    "C106_integers",
    "C106_empty_expression_refuted",
    "C106_largest_integer_refuted"
   ],
   "note": "C106_again holds for every kind of value, so for the configuration, the document and each part; C106_integers has no condition but that the number can be read twice. reads_back (as in C89): the digits of a large double read back to it."
  },
  {
   "property": "C107",
   "status": "proved",
   "theorems": [
    "C107_tail",
    "C107_alternatives",
    "C107_compiles"
   ],
   "note": "The grammar (rx, rx_text, rx_ok) and its meaning (means) are in Spec_Tail.v and do not mention the compiler of Regex.v. ASCII expressions; counted repetition, escape classes and flags are not in the grammar (see DESIGN.md on Regex.v)."
  }
 ]
}

{
 "claims": [
  {
   "property": "C01",
   "status": "proved",
   "theorems": [
    "C01_request_roundtrip",
    "C01_response_roundtrip",
    "C01_sent_means_fits",
    "C01_empty_command_refuted",
    "C01_failed_send_is_atomic_refuted"
   ],
   "note": "Round trip for requests and responses under exactly the size/UTF-8/name guards. Findings: an empty command is sent but cannot be decoded; a client-side exception in the middle of a message leaves a partial message on the wire (both _refuted)."
  },
  {
   "property": "C02",
   "status": "proved",
   "theorems": [
    "C02_encode_iff_fits",
    "C02_header_roundtrip",
    "C02_width"
   ],
   "note": "encode succeeds iff the fields fit; decode returns the fields (a trailing empty string is not distinguishable from none: 'visible')."
  },
  {
   "property": "C03",
   "status": "proved",
   "theorems": [
    "C03_split_join",
    "C03_split_total"
   ],
   "note": ""
  },
  {
   "property": "C04",
   "status": "proved",
   "theorems": [
    "C04_only_public_methods",
    "C04_other_commands_rejected",
    "C04_needs_initialisation",
    "C04_client_sees_failure"
   ],
   "note": "Session class abstract; the theorems hold for all session classes and histories."
  },
  {
   "property": "C05",
   "status": "proved",
   "theorems": [
    "C05_isolation",
    "C05_disconnect_closes_only_own",
    "C05_no_use_after_close_refuted"
   ],
   "note": "Non-interference for all interleavings at request granularity (the asyncio server handles a request without suspension). Finding: failed re-initialisation keeps a closed session registered (_refuted)."
  },
  {
   "property": "C06",
   "status": "proved",
   "theorems": [
    "C06_filter_is_transparent",
    "C06_skipped_iff_known"
   ],
   "note": "Under collision-free hashing (hypothesis); the peer is assumed not to change its files by itself."
  },
  {
   "property": "C07",
   "status": "proved",
   "theorems": [
    "C07_value_comes_back_iff",
    "C07_entity_by_name",
    "C07_refused_iff",
    "C07_any_value_refuted",
    "C07_entity_with_dot_refuted"
   ],
   "note": "exact characterisation (iff) over all nested values; JSON-LD (rdflib-jsonld) enters as the hypothesis JsonLd, met by a concrete codec; the unrestricted claim is refuted"
  },
  {
   "property": "C08",
   "status": "proved",
   "theorems": [
    "C08_replay",
    "C08_client_to_server",
    "C08_remote_commit",
    "C08_recreated_object_refuted"
   ],
   "note": "Any pending changes of a client in any history, sent in any order, to a peer in any state that knows what is updated/deleted and not what is added; either buffer context on either side (C08_replay); whole remote commit including the response (C08_remote_commit). Other objects only gain the type triples sent along. Refuted: a deleted object's type triple stays in the peer's graph, so an object constructed again under its uid gets both classes (C08_recreated_object_refuted). Transport of the values is C07, of the bytes C01."
  },
  {
   "property": "C09",
   "status": "proved",
   "theorems": [
    "C09_bidirectional",
    "C09_refuted_owl_relationships",
    "C09_refuted_deleted_handle"
   ],
   "note": "For every history of valid operations, including raising ones, for ontologies with involutive inverse (C23) whose relationships are all below cuba.relationship. Without the latter (OWL ontologies) it is refuted (C09_refuted_owl_relationships); adding the handle of a deleted object creates a one-way link (C09_refuted_deleted_handle)."
  },
  {
   "property": "C10",
   "status": "proved",
   "theorems": [
    "C10_add_exact",
    "C10_add_error_iff",
    "C10_add_succeeds"
   ],
   "note": ""
  },
  {
   "property": "C11",
   "status": "proved",
   "theorems": [
    "C11_remove_exact",
    "C11_remove_then_get_none"
   ],
   "note": "In consistent (bidirectional, closed) sessions."
  },
  {
   "property": "C12",
   "status": "proved",
   "theorems": [
    "C12_get_positional"
   ],
   "note": "In consistent sessions."
  },
  {
   "property": "C13",
   "status": "proved",
   "theorems": [
    "C13_get_exact",
    "C13_uids_and_class"
   ],
   "note": "In consistent sessions."
  },
  {
   "property": "C14",
   "status": "proved",
   "theorems": [
    "C14_attribute_local",
    "C14_other_attributes",
    "C14_refuted_reconstruct"
   ],
   "note": "Conversion is a parameter (modelled in Datatype.v). Constructing twice under one uid gives two values (_refuted)."
  },
  {
   "property": "C15",
   "status": "proved",
   "theorems": [
    "C15_delete_no_trace",
    "C15_refuted_owl_relationships",
    "C15_root_may_dangle"
   ],
   "note": "If all relationships in use are below cuba.relationship; refuted otherwise. The session root may be the deleted object."
  },
  {
   "property": "C16",
   "status": "proved",
   "theorems": [
    "C16_prune_exact",
    "C16_prune_no_dangling",
    "C16_refuted_prune_rel_dangling"
   ],
   "note": "Exactness for every rel; absence of dangling references for prune() and refuted for prune(rel=...)."
  },
  {
   "property": "C17",
   "status": "partial",
   "theorems": [
    "C17_max_depth_paths",
    "C17_paths_exist",
    "C17_find_all_exact",
    "C17_find_first",
    "C17_find_by_uid",
    "C17_max_depth_sound",
    "C17_max_depth_graded_partial",
    "C17_max_depth_enough",
    "C17_max_depth_first_sound",
    "C17_max_depth_neighbours",
    "C17_refuted_max_depth"
   ],
   "note": "Exact without max_depth (find_all and first). With max_depth: soundness in general (both modes); completeness for every object to which no path without repetitions is longer than the limit (C17_max_depth_paths, both modes; TraversePaths.v: the tree of the depth-first walk), hence for graded graphs, for a depth of at least the number of objects less one (C17_max_depth_enough), and for root and its direct neighbours (C17_max_depth_neighbours); C17_depth_example meets the hypotheses where an object is first visited on its longer path; completeness in general is refuted (C17_refuted_max_depth)."
  },
  {
   "property": "C18",
   "status": "proved",
   "theorems": [
    "C18_subtree_exact",
    "C18_subtree_no_skip"
   ],
   "note": ""
  },
  {
   "property": "C19",
   "status": "proved",
   "theorems": [
    "C19_add_frame",
    "C19_update_frame"
   ],
   "note": "Any number of sessions, any arguments, returning or raising: every session but the one of the object add()/update() is called on is unchanged."
  },
  {
   "property": "C20",
   "status": "proved",
   "theorems": [
    "C20_add_terminates",
    "C20_update_terminates",
    "C20_add_copies",
    "C20_contains_self_refuted",
    "C20_classes_merged_refuted",
    "C20_not_atomic_refuted"
   ],
   "note": "Termination for all (cyclic) graphs, exact copy when the reachable objects are new to the target. Also proved where it fails: the added object containing the object it is added to leaves a one-way link; classes of linked objects that are not copied are merged; a class that rejects attributes makes add() stop half-way."
  },
  {
   "property": "C21",
   "status": "proved",
   "theorems": [
    "C21_add_other_session",
    "C21_update_other_session",
    "C21_update_not_contained",
    "C21_update_same_session",
    "C21_two_parents_refuted"
   ],
   "note": "Exact set of links, classes and attributes after add()/update() with overlapping versions, and bidirectionality, under the stated proviso (fits_target); without it refuted: with two lost parents only one back link is restored (C21_two_parents_refuted)."
  },
  {
   "property": "C22",
   "status": "proved",
   "theorems": [
    "C22_superclasses_exact",
    "C22_subclasses_exact",
    "C22_direct_exact",
    "C22_converse",
    "C22_reflexive",
    "C22_transitive",
    "C22_cycles",
    "C22_refuted_thing_converse",
    "C22_refuted_topDataProperty"
   ],
   "note": "Termination and exactness for every graph and visiting order; converse for ordinary entities (nothing declared above a top or below a bottom entity). Refuted for owl:Thing (converse) and owl:topDataProperty."
  },
  {
   "property": "C23",
   "status": "proved",
   "theorems": [
    "C23_inverse_total_stable_involutive",
    "C23_other_entities_unchanged",
    "C23_hierarchy_unchanged",
    "C23_refuted_name_collision",
    "C23_refuted_unregistered_inverse",
    "C23_involutive_environment"
   ],
   "note": "For all query histories on ontologies with functional declared inverses, registered inverses and non-colliding names; refuted without the naming and registration conditions."
  },
  {
   "property": "C24",
   "status": "proved",
   "theorems": [
    "C24_inverse_mirrors_hierarchy",
    "C24_inverse_of_active_is_passive",
    "C24_refuted_inconsistent_declaration"
   ],
   "note": "For all histories, if the declared inverses respect the hierarchy and along chains of registered relationships; refuted when an intermediate relationship has a declared inverse elsewhere."
  },
  {
   "property": "C25",
   "status": "proved",
   "theorems": [
    "C25_disjoint",
    "C25_net",
    "C25_recreate_refuted"
   ],
   "note": "Disjointness for all histories (including failing operations and a backend changed by others); net meaning (added unknown to / updated, deleted known to the backend; every difference is in a buffer) for all histories of a session that is the only user of its backend (predicate served). Refuted: constructing an object with a uid already in the session puts it into two buffers."
  },
  {
   "property": "C26",
   "status": "proved",
   "theorems": [
    "C26_engine_context",
    "C26_loading_calls",
    "C26_connect"
   ],
   "note": "For every program of engine-side steps to any nesting depth, raising or not; for all API calls that load; connecting leaves only the root pending."
  },
  {
   "property": "C27",
   "status": "proved",
   "theorems": [
    "C27_recreate_expired_refuted",
    "C27_expire",
    "C27_pending_never_expired",
    "C27_read_is_fresh"
   ],
   "note": "expire exactly; pending objects are never expired in any history; reading an expired object fetches the backend's triples and leaves others alone. Refuted outside of these histories: constructing an object under the uid of an expired one."
  },
  {
   "property": "C28",
   "status": "proved",
   "theorems": [
    "C28_commit",
    "C28_backend_is_session",
    "C28_commit_any",
    "C28_commit_twice",
    "C28_reconnect",
    "C28_root_removal_refuted",
    "C28_recreate_refuted",
    "C28_commit_any_history"
   ],
   "note": "For all histories of a sole user of the backend (C28_commit, C28_backend_is_session), for all histories with foreign changes (C28_commit_any: old triples of added objects stay), commit twice, reconnecting with a new root. Two refuted cases: removing from the root before the first commit, and re-creating a deleted uid."
  },
  {
   "property": "C29",
   "status": "partial",
   "theorems": [
    "C29_failure_while_writing_partial",
    "C29_no_root",
    "C29_failure_in_backend_commit_refuted"
   ],
   "note": "Failures while changes are written leave session and backend unchanged and commit can be retried. Refuted when the backend raises in its own commit: buffers were reset before. That ROLLBACK restores the backend is an assumption on the backend (modelled as restoring the state)."
  },
  {
   "property": "C30",
   "status": "proved",
   "theorems": [
    "C30_load_zero_refuted",
    "C30_lazy_loading_invisible",
    "C30_load",
    "C30_loaded_needs_no_backend",
    "C30_get",
    "C30_writes",
    "C30_load_deleted_refuted"
   ],
   "note": "Positional and faithful load, no backend contact for loaded objects, wrapper session refines the in-memory session for all operations (C30_lazy_loading_invisible). Refuted: load of an object deleted since the last commit; load of the zero uid."
  },
  {
   "property": "C31",
   "status": "proved",
   "theorems": [
    "C31_lossless",
    "C31_stored",
    "C31_literal_refuted",
    "C31_zero_literal_refuted",
    "C31_literal_raises_refuted"
   ],
   "note": "Text level (uuid/IRI strings, literals): lossless for all triples of terms that are not mistaken for objects and are not the zero IRI. Refuted for literals that look like object IRIs (three theorems)."
  },
  {
   "property": "C32",
   "status": "proved",
   "theorems": [
    "C32_query",
    "C32_load",
    "C32_update",
    "C32_unstorable_refused",
    "C32_rollback_reopen",
    "C32_other_session",
    "C32_rollback_refuted",
    "C32_rollback_wrong_class_refuted",
    "C32_untyped_literal_refuted",
    "C32_entity_object_refuted",
    "C32_two_sessions_refuted",
    "C32_numeric_string_refuted"
   ],
   "note": "for every history of adds, removes, queries, loads and new sessions; IRIs are assumed to split into a bound namespace and a name (C43) and values to survive their column. Refuted: rollback of a failed commit (cached namespace indexes), untyped literals, entity objects of other predicates, two sessions on one database, numeric strings in sqlite. The statement texts for the same patterns are C69. C32_unstorable_refused: no silent loss of literals."
  },
  {
   "property": "C33",
   "status": "proved",
   "theorems": [
    "C33_vector_columns_roundtrip",
    "C33_refuted_empty_vector",
    "C33_refuted_column_name",
    "C33_vector_condition"
   ],
   "note": "For every mix of scalar and vector columns, all shapes with at least one element, several joined tables, column names not ending in ___<number>; also equality conditions on vectors. Refuted without these side conditions."
  },
  {
   "property": "C34",
   "status": "partial",
   "theorems": [
    "C34_semicolon_partial",
    "C34_refuted_other_characters",
    "C34_refuted_injection"
   ],
   "note": "Only the semicolon is checked (the list of names is consumed by the loop for the first character); the full property is refuted for every other forbidden character."
  },
  {
   "property": "C35",
   "status": "proved",
   "theorems": [
    "C35_table_name_determines_datatype",
    "C35_tables_not_shared",
    "C35_yaml_datatypes_supported",
    "C35_refuted_custom_name_clash"
   ],
   "note": "For the standard vocabularies and custom datatypes whose name does not imitate their table prefix, which includes every YAML datatype except UUID (raises). Refuted for imitating names."
  },
  {
   "property": "C36",
   "status": "proved",
   "theorems": [
    "C36_condition_means_conjunction",
    "C36_list_pattern",
    "C36_update_parameters",
    "C36_refuted_shared_parameter"
   ],
   "note": "For all nestings in which only conjunctions of plain comparisons have more than ten members (this covers everything the SQL session builds); refuted beyond."
  },
  {
   "property": "C37",
   "status": "proved",
   "theorems": [
    "C37_migrate",
    "C37_failure",
    "C37_unknown_name",
    "C37_check",
    "C37_by_label_refuted",
    "C37_already_current_refuted",
    "C37_mixed_refuted"
   ],
   "note": "sql_migrate.py on top of the SQL tables of C32 (types, relations, inverse for root, attribute rows). Proved for databases without new-schema tables, known names, names equal to IRI suffixes, storable values; failure restores everything; unknown names always fail; version check. Refuted: by-label names, running on a current/empty database, mixed databases lose all data."
  },
  {
   "property": "C38",
   "status": "proved",
   "theorems": [
    "C38_order_sound",
    "C38_same_identifier",
    "C38_fails_iff_impossible",
    "C38_fails_iff_missing_or_cyclic",
    "C38_history_requirements_installed",
    "C38_refuted_case",
    "C38_refuted_owl_requirements"
   ],
   "note": "For all sets of packages and requirement graphs whose identifiers/requirements are spelled consistently. Findings: requirements are not lower-cased, and requirements of OWL packages are never parsed (both _refuted)."
  },
  {
   "property": "C39",
   "status": "partial",
   "theorems": [
    "C39_failure_keeps_installed_packages",
    "C39_uninstall_exact",
    "C39_uninstall_refused_if_required",
    "C39_install_exact",
    "C39_overwrite_exact",
    "C39_uninstall_succeeds",
    "C39_refuted_registry_lost",
    "C39_refuted_disk_lost",
    "C39_refuted_format",
    "C39_refuted_duplicate_argument"
   ],
   "note": "The set of installed packages after failure, and the exact effect of success, are proved. 'In-memory registry as before' and 'files on disk as before' are refuted (registry cleared before the filter; rmtree before KeyError for identifiers with capitals)."
  },
  {
   "property": "C40",
   "status": "proved",
   "theorems": [
    "C40_vector_datatype_parsed_back",
    "C40_vector_iris_distinct",
    "C40_string_datatype_parsed_back",
    "C40_string_limit_exact",
    "C40_string_limit_zero_refuted",
    "C40_vector_roundtrip",
    "C40_vector_conversion_sound",
    "C40_empty_shape_refuted"
   ],
   "note": "All element types and non-empty shapes; STRING:n exactly for n>0. Findings: STRING:0 is unlimited, VECTOR:FLOAT without shape cannot be used (_refuted)."
  },
  {
   "property": "C41",
   "status": "proved",
   "theorems": [
    "C41_nothing_lost",
    "C41_all_complete",
    "C41_contains",
    "C41_first",
    "C41_one",
    "C41_next",
    "C41_iteration",
    "C41_refuted_interleaved_iterators",
    "C41_refuted_one_none"
   ],
   "note": "For sequential consumption. Two interleaved iterators lose elements and one() with a None element misbehaves (_refuted)."
  },
  {
   "property": "C42",
   "status": "proved",
   "theorems": [
    "C42_roundtrip",
    "C42_injective",
    "C42_form",
    "C42_errors",
    "C42_range",
    "C42_not_canonical_refuted"
   ],
   "note": "Round trip and injectivity for all 2^128 uids, form, range. Refuted: uid_from_iri accepts other texts for the same uid."
  },
  {
   "property": "C43",
   "status": "proved",
   "theorems": [
    "C43_from_iri_sound",
    "C43_label_is_name",
    "C43_from_iri_complete",
    "C43_from_iri_keyerror",
    "C43_from_iri_unsplittable_refuted",
    "C43_namespace_of_entity",
    "C43_longest_prefix_refuted",
    "C43_namespace_case_insensitive",
    "C43_namespace_found",
    "C43_update_namespaces",
    "C43_entity_namespace",
    "C43_entity_namespace_case_refuted",
    "C43_get_by_name",
    "C43_get_sound",
    "C43_inverse_of_relationship",
    "C43_get_entity",
    "C43_iteration",
    "C43_get_by_label",
    "C43_bind_invariant",
    "C43_bind_keeps_bindings",
    "C43_bind",
    "C43_store_load",
    "C43_store_load_exact",
    "C43_load_unterminated",
    "C43_loaded_found"
   ],
   "note": "from_iri / namespace lookup / get / iteration / labels / bind / store+load for all registries; the three exceptions named in the statement are exhibited by the _refuted theorems C43_label_is_name, C43_inverse_of_relationship, C43_get_entity, C43_load_unterminated, C43_loaded_found: names by label, inverses, names with dots, loading."
  },
  {
   "property": "C44",
   "status": "proved",
   "theorems": [
    "C44_old_name_found_iff",
    "C44_old_name_found_refuted",
    "C44_conversion_injective",
    "C44_alternative_is_same_name",
    "C44_cuba_old_names",
    "C44_cuba_datatypes",
    "C44_references_follow_definitions",
    "C44_lookup_converted_name"
   ],
   "note": "exact characterisation (iff) of the names found; the unrestricted version is refuted (A_1); C44_cuba_datatypes: membership in the cuba namespace"
  },
  {
   "property": "C45",
   "status": "proved",
   "theorems": [
    "C45_always_decides",
    "C45_validate_iff_grammar",
    "C45_entity_iff_grammar",
    "C45_class_expression_iff_grammar",
    "C45_namespace_name_refuted"
   ],
   "note": "grammar written independently as inductive predicates (Document, Entity, ClassExpr); namespace_name_refuted shows where the format itself is wider than documented (unanchored regex)"
  },
  {
   "property": "C46",
   "status": "partial",
   "theorems": [
    "C46_cycle_never_ends",
    "C46_cardinality_forms",
    "C46_exact",
    "C46_enforced_if_classes_unique_partial",
    "C46_no_false_alarm",
    "C46_every_object_refuted"
   ],
   "note": "The literal claim is false of the code (C46_every_object_refuted): only the object of each class visited last is checked. Proved instead: the exact verdict for every finite tree (C46_exact), the full claim when classes are unique in the tree, absence of false alarms for every tree, non-termination on cyclic trees"
  },
  {
   "property": "C47",
   "status": "proved",
   "theorems": [
    "C47_name_is_stable",
    "C47_names_of_different_objects_differ",
    "C47_no_overwrite",
    "C47_moved_file",
    "C47_download_sent",
    "C47_path_is_local_refuted"
   ],
   "note": "Naming (C47_name_is_stable, C47_names_of_different_objects_differ: uids have one length), no overwriting of other objects' files (C47_no_overwrite), the file moved or sent (C47_moved_file, C47_download_sent). C47_path_is_local_refuted exhibits the exception named in the statement: the second download of an unchanged file leaves the server's path in the client's object."
  },
  {
   "property": "C48",
   "status": "proved",
   "theorems": [
    "C48_attributes",
    "C48_single_declaration",
    "C48_inherited",
    "C48_constructor",
    "C48_force",
    "C48_by_argname",
    "C48_call",
    "C48_yaml",
    "C48_nearest_default_refuted",
    "C48_default_optional_refuted",
    "C48_falsy_default_refuted",
    "C48_case_refuted"
   ],
   "note": "attributes of a class = declarations of all its superclasses, for every enumeration order; obligatory iff some superclass restricts it without default; constructor accepts iff complete and expected; YAML parser adds exactly one declaration; call to Nothing/wrapper without session raises. Refuted: nearest default wins; default makes optional; falsy default kept; names differing only in case."
  },
  {
   "property": "C49",
   "status": "proved",
   "theorems": [
    "C49_datatype"
   ],
   "note": "for every graph, pop order and enumeration order; uses the exactness of superclasses (C22)"
  },
  {
   "property": "C50",
   "status": "proved",
   "theorems": [
    "C50_reading",
    "C50_exact",
    "C50_accepts",
    "C50_ends",
    "C50_cycle_hangs",
    "C50_invalid",
    "C50_binds",
    "C50_order",
    "C50_one_kind",
    "C50_keeps"
   ],
   "note": "YmlSpec.v states references, ancestors, kinds, acceptance and triples without the parser's functions. C50_exact (soundness and the exact graph), C50_accepts (completeness), C50_ends/C50_cycle_hangs (termination both ways), C50_order, C50_invalid, C50_keeps, C50_binds, C50_one_kind; C50_reading states what the accessors of the specification read from a document. Examples: own superclasses in another spelling give KeyError, failures leave triples behind, 'default_rel: false' counts, 'INT:5' gives AssertionError."
  },
  {
   "property": "C51",
   "status": "proved",
   "theorems": [
    "C51_attributes",
    "C51_new_class"
   ],
   "note": "C51_attributes over any prior graph whose blank nodes are used up to a counter (an invariant that parsing preserves), C51_new_class connects it with the attributes of C48."
  },
  {
   "property": "C52",
   "status": "proved",
   "theorems": [
    "C52_exact",
    "C52_bad_active",
    "C52_refused",
    "C52_unrecognised",
    "C52_unreadable",
    "C52_accepted",
    "C52_namespaces",
    "C52_keeps",
    "C52_fresh",
    "C52_active",
    "C52_default"
   ],
   "note": "C52_exact (bindings, result and exact graph), C52_bad_active, C52_refused, C52_unreadable, C52_accepted (necessity), C52_namespaces (through the registry of C43), C52_keeps (any document and outcome), C52_fresh (any sequence of documents), C52_active (through the closure of C47), C52_default. The text parsers of rdflib are an arbitrary function from file and format to a graph or an error. Examples: two descriptions of one namespace give an ambiguous default relationship, failures are not atomic, requirements are refused."
  },
  {
   "property": "C53",
   "status": "proved",
   "theorems": [
    "C53_delete_recursively",
    "C53_max_depth",
    "C53_max_depth_enough",
    "C53_max_depth_neighbours"
   ],
   "note": "For every graph, relationship and enumeration order; with max_depth soundness and exact frame (completeness is limited as in C17: C53_max_depth_neighbours and C53_max_depth_enough say where it holds)."
  },
  {
   "property": "C54",
   "status": "proved",
   "theorems": [
    "C54_remove_cuds_object",
    "C54_then_prune",
    "C54_owl_relationships_refuted"
   ],
   "note": "Exact frame; combined with prune (C16). Without relationships being below cuba.relationship it is refuted."
  },
  {
   "property": "C55",
   "status": "proved",
   "theorems": [
    "C55_relationships_between",
    "C55_find_relationships",
    "C55_find_by_oclass",
    "C55_find_by_attribute",
    "C55_filter",
    "C55_filter_by_relationships",
    "C55_filter_by_oclass",
    "C55_second_class_refuted"
   ],
   "note": "Built on C17 (search) with exact criteria; registry filters; second class refuted."
  },
  {
   "property": "C56",
   "status": "proved",
   "theorems": [
    "C56_pretty_print",
    "C56_error",
    "C56_missing_name_refuted"
   ],
   "note": "Exact contents, order, once-only and indentation as one theorem; the error is characterised exactly. Values of attributes and decoration characters are not modelled."
  },
  {
   "property": "C57",
   "status": "proved",
   "theorems": [
    "C57_render",
    "C57_ids",
    "C57_picture",
    "C57_collision_refuted",
    "C57_twice_refuted"
   ],
   "note": "Node and edge statements exactly; ids under injectivity; collisions and double rendering refuted. Labels are not modelled."
  },
  {
   "property": "C58",
   "status": "proved",
   "theorems": [
    "C58_run",
    "C58_in_sync",
    "C58_writes_arrive",
    "C58_save",
    "C58_save_in_sync",
    "C58_failed_first_run_refuted",
    "C58_failed_update_refuted",
    "C58_recreated_refuted",
    "C58_save_left_open_refuted"
   ],
   "note": "run and save characterised for every state and engine, including failures; in-sync and no-lost-write over all histories under the stated conditions; each condition shown necessary by a refutation. Engine methods are arbitrary programs on the session."
  },
  {
   "property": "C59",
   "status": "proved",
   "theorems": [
    "C59_plain",
    "C59_userinfo",
    "C59_password_at_refuted",
    "C59_empty_userinfo_refuted"
   ],
   "note": "Includes a model of urllib's urlsplit/urlunsplit; parameters (;) and the IPv6/NFKC checks are left out."
  },
  {
   "property": "C60",
   "status": "proved",
   "theorems": [
    "C60_copy",
    "C60_copy_wrapper",
    "C60_copy_depth",
    "C60_twice",
    "C60_again",
    "C60_consistent",
    "C60_sessions",
    "C60_dangling_refuted",
    "C60_overwrite_refuted"
   ],
   "note": "C60_copy, C60_copy_wrapper (exact target session, both kinds), C60_copy_depth (limited max_depth: an object may be left out although it is within the limit, because the walk marks objects as visited on a longer way first: see C17), C60_twice (importing is idempotent), C60_again (export of the import), C60_consistent, C60_sessions (the hypotheses hold of every session reachable by API calls); restrictions as C60_dangling_refuted and C60_overwrite_refuted. The JSON text is C07."
  },
  {
   "property": "C61",
   "status": "proved",
   "theorems": [
    "C61_exact",
    "C61_after_commit",
    "C61_no_root",
    "C61_pending_lost_refuted",
    "C61_uncommitted_refuted"
   ],
   "note": "C61_exact (result, order-independent, and frame), C61_after_commit, C61_no_root; restrictions as C61_pending_lost_refuted and C61_uncommitted_refuted. The result is consumed at once (lazy consumption: C41)."
  },
  {
   "property": "C62",
   "status": "proved",
   "theorems": [
    "C62_union",
    "C62_find",
    "C62_find_first",
    "C62_find_by_uid",
    "C62_full_graph",
    "C62_wrapper",
    "C62_unlinked_refuted"
   ],
   "note": "C62_find (search with lazily loaded children, any relationship and criterion on uids), C62_find_first, C62_find_by_uid (find_all=False: the children not needed are not loaded; WrapperFirst.v), C62_full_graph, C62_wrapper (equal to the export of the in-memory session), C62_union (ontology part and custom datatypes); restriction as C62_unlinked_refuted."
  },
  {
   "property": "C63",
   "status": "proved",
   "theorems": [
    "C63_same_as_local",
    "C63_connect",
    "C63_same_as_direct",
    "C63_get",
    "C63_load",
    "C63_writes",
    "C63_isolated",
    "C63_commit",
    "C63_noted",
    "C63_reconnect_refuted",
    "C63_reused_uid_refuted"
   ],
   "note": "C63_connect, C63_same_as_local (all histories), C63_same_as_direct (against a session used directly), C63_get, C63_load, C63_writes, C63_isolated, C63_commit, C63_noted; the restrictions as C63_reconnect_refuted and C63_reused_uid_refuted."
  },
  {
   "property": "C64",
   "status": "proved",
   "theorems": [
    "C64_isolation",
    "C64_untouched",
    "C64_commit",
    "C64_no_lost_update",
    "C64_same_object_refuted",
    "C64_first_commit_keeps_root"
   ],
   "note": "C64_isolation, C64_untouched, C64_commit, C64_no_lost_update, C64_first_commit_keeps_root for all schedules; the restriction as C64_same_object_refuted (two users each add an object to their wrapper: the first user's link from the root is lost, its inverse stays). Operations are atomic in the model: the database serialises transactions (trusted)."
  },
  {
   "property": "C65",
   "status": "proved",
   "theorems": [
    "C65_convert",
    "C65_references",
    "C65_capital",
    "C65_what_is_a_name",
    "C65_collision_refuted"
   ],
   "note": "C65_convert, C65_references, C65_capital, C65_what_is_a_name; the restriction as C65_collision_refuted. Conversions that raise (undefined superclass, cycle) are outside: nothing is stored then."
  },
  {
   "property": "C66",
   "status": "proved",
   "theorems": [
    "C66_neighbor_diff",
    "C66_neighbor_diff_none",
    "C66_change_oclass",
    "C66_change_oclass_error",
    "C66_change_oclass_linked",
    "C66_change_oclass_linked_error",
    "C66_recycle_new",
    "C66_recycle_keep",
    "C66_recycle_fix",
    "C66_recycle_fix_returns",
    "C66_subrelationships_refuted",
    "C66_neighbours_refuted",
    "C66_arguments_refuted"
   ],
   "note": "C66_neighbor_diff, C66_change_oclass, C66_change_oclass_error, C66_recycle_new/_keep/_fix/_fix_returns; the restrictions as C66_subrelationships_refuted, C66_neighbours_refuted, C66_arguments_refuted. C66_change_oclass_linked and C66_change_oclass_linked_error say exactly what happens to an object with neighbours."
  },
  {
   "property": "C67",
   "status": "proved",
   "theorems": [
    "C67_reads_select",
    "C67_reads_delete",
    "C67_reads_insert",
    "C67_reads_update",
    "C67_reads_drop",
    "C67_select",
    "C67_delete",
    "C67_insert",
    "C67_update",
    "C67_drop",
    "C67_create",
    "C67_where",
    "C67_join",
    "C67_row_written",
    "C67_backquote_refuted",
    "C67_no_columns_refuted"
   ],
   "note": "SqlText.v models the text generation; SqlRead.v is a separate specification of how SQLite reads (lexer with quoting, comments and parameters; parser) and runs the statements. C67_reads_*: the text of each statement is read as the intended one; C67_select/insert/update/delete/drop/create: its effect on every database. C67_where, C67_join: query objects. The restrictions in the statement are needed: C67_backquote_refuted, C67_no_columns_refuted. Names are compared exactly (SQLite ignores ASCII case); uniqueness and foreign keys are an arbitrary function of the database."
  },
  {
   "property": "C68",
   "status": "proved",
   "theorems": [
    "C68_column_types",
    "C68_roundtrip",
    "C68_found",
    "C68_strings",
    "C68_digits_refuted",
    "C68_nan_refuted",
    "C68_big_int_refuted"
   ],
   "note": "SqlStore.v: the storage rules of SQLite (column affinity, numeric texts) as specification, the column types and conversions of osp-core as model; floats are abstract. C68_roundtrip and C68_found for all storable values; C68_strings says exactly what happens to every string; the exceptions in the statement are C68_digits_refuted, C68_nan_refuted, C68_big_int_refuted."
  },
  {
   "property": "C69",
   "status": "proved",
   "theorems": [
    "C69_select_rels",
    "C69_select_types",
    "C69_select_data",
    "C69_remove_rels",
    "C69_remove_types",
    "C69_remove_data",
    "C69_add_rel",
    "C69_add_type",
    "C69_add_data",
    "C69_cuds_index",
    "C69_entity_index",
    "C69_namespaces",
    "C69_initialize"
   ],
   "note": "SqlTriple.v models the construction of the queries and conditions; the texts are those of SqlText.v, read and executed by the SQL reader of SqlRead.v (C67), so the theorems go from the pattern to the rows. C69_select_{rels,types,data}, C69_remove_{rels,types,data}, C69_add_{rel,type,data}, C69_cuds_index, C69_entity_index, C69_namespaces, C69_initialize. Hypotheses: the tables exist (established by C69_initialize), one index per uid and per entity (kept by C69_cuds_index and C69_entity_index), generated indexes are new, the comparison of the database is symmetric and transitive. C69_example* meets them on a database created and filled by the statements."
  },
  {
   "property": "C70",
   "status": "proved",
   "theorems": [
    "C70_nodes",
    "C70_is_a",
    "C70_inverse",
    "C70_clusters",
    "C70_terminates",
    "C70_order_refuted"
   ],
   "note": "OntoDot.v models the traversal over an abstract ontology. C70_nodes, C70_is_a, C70_inverse, C70_clusters for every finished drawing; C70_terminates: enough fuel always finishes. Hypothesis: the inverse of the inverse of a relationship is the relationship (C23: where the inverse declarations pair up). C70_order_refuted: the edge to a generated inverse depends on the order of iteration. C70_hinv and C70_example: a drawing with a cyclic hierarchy, inverses, attributes and clusters."
  },
  {
   "property": "C71",
   "status": "proved",
   "theorems": [
    "C71_add",
    "C71_remove",
    "C71_query",
    "C71_subject",
    "C71_history",
    "C71_initialize",
    "C71_reopen",
    "C71_clear",
    "C71_second_session_refuted"
   ],
   "note": "SqlSession.v runs every database access as the text of the statement through the reader of C67. C71_add, C71_remove, C71_query: one operation; C71_subject: all tables of a subject; C71_history: any sequence against the same operations on a set; C71_initialize: a new database is a starting point; C71_reopen: an existing database opened again, also with additional datatypes; C71_clear: after clearing no triple is left and the session is as with a new database (the clearing of the registry and the transaction around it are not part of this theorem). Assumed of SQLite (record rules): values that compare equal are identified, NULL is never a component, generated keys are fresh, a uniqueness error in the tables of relationships and types means the row exists. C71_second_session_refuted: a cache that lacks a namespace. C71_example_hypotheses, C71_example_proper, C71_example: a concrete database and history. A rollback also leaves the cache stale (C32)."
  },
  {
   "property": "C72",
   "status": "proved",
   "theorems": [
    "C72_contains",
    "C72_access",
    "C72_item",
    "C72_iteration",
    "C72_module",
    "C72_equality",
    "C72_in_namespace",
    "C72_in_namespace_declared",
    "C72_in_namespace_refuted",
    "C72_default_rel",
    "C72_default_rel_again",
    "C72_default_rel_retry_refuted"
   ],
   "note": "Registry.v on top of Namespace.v. C72_contains, C72_access, C72_item, C72_iteration, C72_module, C72_equality: the registry; C72_in_namespace, C72_in_namespace_declared, C72_in_namespace_refuted: `in` on a namespace (never false); C72_default_rel, C72_default_rel_again, C72_default_rel_retry_refuted: the default relationship with its cache. C72_example_no_clash, C72_example: a concrete registry. Case conversion is that of ASCII letters. The two surprises (`in` raises; None after a KeyError) are part of the statement."
  },
  {
   "property": "C73",
   "status": "proved",
   "theorems": [
    "C73_get",
    "C73_set",
    "C73_del",
    "C73_iteration",
    "C73_assign",
    "C73_del_rel",
    "C73_refused",
    "C73_replace_refuted",
    "C73_failed_assignment_refuted",
    "C73_items",
    "C73_equal",
    "C73_equal_all"
   ],
   "note": "Neighbors.v over the graphs of Cuds.v, with the notifications as a list of events. C73_get, C73_set, C73_del, C73_iteration, C73_assign (success and failure at any entry), C73_del_rel, C73_refused: all with frame conditions and events. C73_replace_refuted, C73_failed_assignment_refuted: the two exceptions named in the statement. C73_example: a concrete assignment. The session is not modelled as changing the graph when notified (Wrapper.v does that). C73_items, C73_equal, C73_equal_all, C73_equal_example: items and == (for all relationships the reads made by comparing the values are not recorded)."
  },
  {
   "property": "C74",
   "status": "proved",
   "theorems": [
    "C74_equivalence",
    "C74_hash",
    "C74_same_session",
    "C74_across_sessions",
    "C74_kept",
    "C74_copies_are_equal",
    "C74_deleted",
    "C74_several_classes_refuted",
    "C74_created_again_refuted"
   ],
   "note": "Equal.v over the sessions of Cuds.v and CudsX.v, with the enumeration order of types as a parameter. C74_equivalence, C74_hash, C74_same_session, C74_across_sessions, C74_kept (histories), C74_copies_are_equal (with C20_add_copies), C74_deleted; C74_several_classes_refuted, C74_created_again_refuted: the exceptions named in the statement. C74_example: hypotheses met and not met by concrete sessions."
  },
  {
   "property": "C75",
   "status": "proved",
   "theorems": [
    "C75_refresh",
    "C75_refresh_deleted",
    "C75_not_refreshed",
    "C75_neighbour_follows",
    "C75_refresh_many",
    "C75_refresh_everything"
   ],
   "note": "Wrapper.v with an arbitrary backend graph in which the uid of the wrapper does not occur (it is stored as 0). C75_refresh_many: any list of objects (RefreshMany.v: induction over the loop in an arbitrary duplicate-free order); C75_refresh, C75_refresh_deleted: one object; C75_refresh_everything; C75_not_refreshed; C75_neighbour_follows. The hypothesis that no class of the objects concerned is a wrapper class is the store check (one wrapper per session); that a refreshed object is either absent from the database or has a class there holds for what commits write. C75_example, C75_many_example: another user deleted a city and moved its citizen."
  },
  {
   "property": "C76",
   "status": "proved",
   "theorems": [
    "C76_files_stay_inside",
    "C76_request",
    "C76_other_version",
    "C76_response"
   ],
   "note": "Proto.v with frames as byte strings and the directory as the list of files written, latest first; 'written' in PropReceive.v is the directory at a return or at an exception, and is proved equal to the directory of receive_files when that returns. The temporary directory is empty when receiving starts. A websocket frame of type text where bytes are expected is an exception and not modelled. C76_other_version: the version check of the server (the client does not check it)."
  },
  {
   "property": "C77",
   "status": "proved",
   "theorems": [
    "C77_simulation",
    "C77_runs_succeed",
    "C77_no_changes_after_start"
   ],
   "note": "Dummy.v: the engine, the map of persons and the session restricted to its persons (name, age, part of the wrapper, citizen); exactly one city, as the code asserts (without one, reading a person that moved raises IndexError). C77_simulation, C77_runs_succeed, C77_no_changes_after_start; the generic session underneath is C58."
  },
  {
   "property": "C78",
   "status": "proved",
   "theorems": [
    "C78_connection_id",
    "C78_fixed_arguments",
    "C78_client_arguments",
    "C78_kwargs_refuted"
   ],
   "note": "Construct.v: lines 162-197 and Python's binding of call arguments (no positional-only parameters; the client's data is a list and a dict with distinct keys). C78_connection_id, C78_fixed_arguments, C78_client_arguments. Refuted for a class that takes connection_id only through **kwargs (C78_kwargs_refuted: it receives what the client claims), hence 'names a parameter' in the statement. What the server does with the constructed session is C04/C05 (Server.v, where construct is any function)."
  }
 ]
}
{
 "claims": [
  {
   "property": "C01",
   "status": "proved",
   "theorems": [
    "C01_set_get_history",
    "C01_set_accepts"
   ],
   "note": "All histories of set_bit over the sorted node-list model."
  },
  {
   "property": "C02",
   "status": "proved",
   "theorems": [
    "C02_cmp_is_set_equality",
    "C02_built_canonical"
   ],
   "note": "Over the inductive set of bitmaps constructible through the API (maxbit arguments up to 2^32-64)."
  },
  {
   "property": "C03",
   "status": "proved",
   "theorems": [
    "C03_or",
    "C03_union",
    "C03_and",
    "C03_xor",
    "C03_andnot",
    "C03_contains",
    "C03_match_any",
    "C03_is_empty",
    "C03_cpy",
    "C03_cardinality",
    "C03_hamming",
    "C03_highest",
    "C03_init_range"
   ],
   "note": "hamming_distance for distances that fit an int; not/andnot for maxbit up to 2^32-64 (see C06)."
  },
  {
   "property": "C04",
   "status": "proved",
   "theorems": [
    "C04_iteration"
   ],
   "note": ""
  },
  {
   "property": "C05",
   "status": "proved",
   "theorems": [
    "C05_roundtrip",
    "C05_read_canonical"
   ],
   "note": "Byte-level model of ebitmap_write/ebitmap_read."
  },
  {
   "property": "C06",
   "status": "partial",
   "theorems": [
    "C06_not_partial",
    "C06_not_terminates_refuted"
   ],
   "note": "Proved for maxbit <= 2^32-64; for every larger maxbit the loop provably never ends (the uint32_t cursor wraps)."
  },
  {
   "property": "C07",
   "status": "proved",
   "theorems": [
    "C07_dom",
    "C07_eq",
    "C07_partial_order",
    "C07_incomp_between",
    "C07_range_contains"
   ],
   "note": ""
  },
  {
   "property": "C08",
   "status": "proved",
   "theorems": [
    "C08_glblub_some",
    "C08_glblub_none",
    "C08_glblub_sym"
   ],
   "note": "Well-formedness, exact sensitivity interval, exact category sets, refusal condition, symmetry."
  },
  {
   "property": "C09",
   "status": "partial",
   "theorems": [
    "C09_roundtrip_partial",
    "C09_roundtrip_refuted",
    "C09_trailing_text_refuted"
   ],
   "note": "Proved for every range whose category sets have no gap of a whole 64-bit word right after a member at the end of a word; refuted in general ({62,63,128} prints as 62..128). Also refuted: the parser ignores text after the second level."
  },
  {
   "property": "C10",
   "status": "proved",
   "theorems": [
    "C10_context_validity"
   ],
   "note": ""
  },
  {
   "property": "C11",
   "status": "proved",
   "theorems": [
    "C11_contents",
    "C11_search_sound_complete",
    "C11_lookup_exact",
    "C11_insert",
    "C11_count"
   ],
   "note": ""
  },
  {
   "property": "C12",
   "status": "proved",
   "theorems": [
    "C12_enumeration",
    "C12_newest_first",
    "C12_xperm_inserts_kept"
   ],
   "note": ""
  },
  {
   "property": "C13",
   "status": "partial",
   "theorems": [
    "C13_truth_value",
    "C13_any_list",
    "C13_leftover_refuted",
    "C13_validated"
   ],
   "note": "Truth value proved for every written formula; arbitrary token lists fully characterised; refuted: left-over operands give the first value instead of -1. Validation accepts exactly the written formulas within ten cells."
  },
  {
   "property": "C14",
   "status": "partial",
   "theorems": [
    "C14_merge_refuted",
    "C14_merge_partial"
   ],
   "note": "Refuted in general (\"a && !b\" and \"b && !a\" are merged); proved when formulas over the same booleans mention them first in the same order."
  },
  {
   "property": "C15",
   "status": "partial",
   "theorems": [
    "C15_normalise",
    "C15_failure_refuted"
   ],
   "note": "Proved for every written formula within ten cells; refuted on the failing path: a too deep formula leaves booleans modified."
  },
  {
   "property": "C16",
   "status": "proved",
   "theorems": [
    "C16_decision",
    "C16_unknown_class"
   ],
   "note": "For policies with well-formed tables, validated constraints and acyclic bounds."
  },
  {
   "property": "C17",
   "status": "partial",
   "theorems": [
    "C17_truth_value",
    "C17_validated_iff_written",
    "C17_unique_reading",
    "C17_fail_closed_partial",
    "C17_fail_closed_refuted",
    "C17_malformed_refuted"
   ],
   "note": "Truth value proved for every written formula, validation accepts exactly those; fail-closed refuted for malformed expressions (negative result treated as satisfied), proved for everything the policy reader accepts."
  },
  {
   "property": "C18",
   "status": "proved",
   "theorems": [
    "C18_bounded",
    "C18_fuel_irrelevant",
    "C18_cycle_never_ends",
    "C18_target_only_not_masked"
   ],
   "note": "Cycles of bounds make the computation endless (C18_cycle_never_ends)."
  },
  {
   "property": "C19",
   "status": "proved",
   "theorems": [
    "C19_optimises",
    "C19_same_rules",
    "C19_type_rules_kept",
    "C19_tables",
    "C19_same_decisions",
    "C19_refuses"
   ],
   "note": "For well-formed policies (maps agree, rules about existing types): result well-formed, effects of the rules in force the same under every valuation of the conditionals for all real types, type rules a permutation, compute_av equal. Allocation failures not modelled."
  },
  {
   "property": "C20",
   "status": "partial",
   "theorems": [
    "C20_neverallow_partial",
    "C20_detected_exactly",
    "C20_no_false_alarm",
    "C20_self_and_targets_refuted",
    "C20_count_wraps_refuted",
    "C20_overlap_found",
    "C20_overlap_real",
    "C20_accepted_means_absent_partial",
    "C20_xperm_exact_partial",
    "C20_xperm_self_and_targets_refuted"
   ],
   "note": "Ordinary rules: equivalence for rules without self beside other targets and with fewer than 2^31 violations (both exceptions are real and refuted); detection alone is exact for all ordinary rules, self beside targets included; no false alarms without these conditions. Extended rules: soundness under every choice of conditional branches, exactness for policies without conditional rules."
  },
  {
   "property": "C21",
   "status": "partial",
   "theorems": [
    "C21_bounds_exact_partial",
    "C21_orphan_reported",
    "C21_type_exact_partial",
    "C21_bounds_sound_refuted"
   ],
   "note": "Exact (both directions) when bounding types have no conditional rules other than allow rules; refuted otherwise: bounds_expand_cond_rules also counts auditallow/dontaudit/type rules of the parent. Branches of different conditionals are chosen independently."
  },
  {
   "property": "C22",
   "status": "proved",
   "theorems": [
    "C22_finite_map",
    "C22_symbol_tables",
    "C22_map_visits"
   ],
   "note": ""
  },
  {
   "property": "C23",
   "status": "partial",
   "theorems": [
    "C23_stable_and_unique",
    "C23_requests_succeed",
    "C23_same_context_same_sid_partial",
    "C23_same_context_refuted",
    "C23_wrap_refuted"
   ],
   "note": "Stability, uniqueness, no wrap and the unlabeled fallback proved for every history with initial SIDs other than 0 and 2^32-1; \"equal contexts always get the same SID\" proved unless the context is explicitly inserted again meanwhile, refuted otherwise; refuted for an initial SID 2^32-1 (the counter wraps to 0)."
  },
  {
   "property": "C24",
   "status": "partial",
   "theorems": [
    "C24_string_roundtrip_partial",
    "C24_record_roundtrip_partial",
    "C24_accepted_sound",
    "C24_record_string",
    "C24_none_string_refuted"
   ],
   "note": "Round trip under the C09 gap condition; soundness of acceptance proved without it; refuted: \"<<none>>\" is neither accepted nor rejected but dereferences NULL."
  },
  {
   "property": "C25",
   "status": "proved",
   "theorems": [
    "C25_type_set_exact",
    "C25_expanded_is_types",
    "C25_converted_exact",
    "C25_missing_type_refused",
    "C25_missing_exclusion_refuted",
    "C25_nested_attribute_refuted",
    "C25_role_set_exact"
   ],
   "note": "Exact for every policy whose attributes contain existing types and for type sets whose names exist, through the type map too; missing names refused; excluded names are not range-checked (refuted) and nested attributes hit the assert (refuted). Role sets exact."
  },
  {
   "property": "C26",
   "status": "proved",
   "theorems": [
    "C26_label_precedence",
    "C26_label_complete",
    "C26_label_unique",
    "C26_refused_unchanged"
   ],
   "note": "For classes the policy knows; an unknown class in permissive mode with an unauthorised result reads outside an array (modelled as undefined behaviour)."
  },
  {
   "property": "C27",
   "status": "partial",
   "theorems": [
    "C27_backed_by_an_answer",
    "C27_newest_answer_decides_partial",
    "C27_newest_answer_partial",
    "C27_other_results",
    "C27_undecided_refuted"
   ],
   "note": "For arbitrary answers: a granted check is backed by some answer since the last reset. The newest answer decides whenever answers decide all permissions (the kernel does; a class mapping with unknown permissions denied does not, C33_unknown_never_decided); refuted for answers with undecided permissions (two nodes for one triple)."
  },
  {
   "property": "C28",
   "status": "partial",
   "theorems": [
    "C28_revoked_partial",
    "C28_answers_not_outdated",
    "C28_undecided_refuted"
   ],
   "note": "Proved when answers decide all permissions; refuted otherwise (the revocation reaches one of two nodes)."
  },
  {
   "property": "C29",
   "status": "proved",
   "theorems": [
    "C29_structure",
    "C29_insert",
    "C29_replaces_unused"
   ],
   "note": ""
  },
  {
   "property": "C30",
   "status": "proved",
   "theorems": [
    "C30_sids_identify",
    "C30_sid_names_context",
    "C30_known_context_never_fails",
    "C30_new_context"
   ],
   "note": ""
  },
  {
   "property": "C31",
   "status": "partial",
   "theorems": [
    "C31_getenforce",
    "C31_policyload",
    "C31_deny_unknown",
    "C31_updated_partial",
    "C31_wrap_refuted",
    "C31_open",
    "C31_ends",
    "C31_not_open",
    "C31_fallback_getenforce",
    "C31_fallback_refuted"
   ],
   "note": "Single values exact under every schedule; the pair taken over by selinux_status_updated exact while the sequence does not wrap during the call, refuted otherwise; fallback mode refuted (access through MAP_FAILED). Loads are sequentially consistent in the model."
  },
  {
   "property": "C32",
   "status": "partial",
   "theorems": [
    "C32_noticed_partial",
    "C32_in_step",
    "C32_stays_in_step",
    "C32_policyload_flushes",
    "C32_refuted"
   ],
   "note": "Refuted for a switch between avc_open and the first poll; proved for every schedule once a first poll agreed with the mode read by avc_open, and up to 2^31 updates."
  },
  {
   "property": "C33",
   "status": "proved",
   "theorems": [
    "C33_known_class",
    "C33_other_class",
    "C33_names_and_round_trip",
    "C33_after_load_refuted",
    "C33_unknown_never_decided"
   ],
   "note": "For the policy in force when the table is installed; C33_after_load_refuted shows why the table must be installed again after a policy load."
  },
  {
   "property": "C34",
   "status": "partial",
   "theorems": [
    "C34_lookup_partial",
    "C34_honest",
    "C34_found_real",
    "C34_validated_unique",
    "C34_tree_sound",
    "C34_comparison",
    "C34_flat_unique",
    "C34_refuted_stems",
    "C34_refuted_none",
    "C34_refuted_subset",
    "C34_refuted_local",
    "C34_from_text_partial"
   ],
   "note": "Lookup equals the flat reading under stated conditions on the expressions (matching only below their own literal components, decidable by the engine, <<none>> only last, key in the part asked for); four refutations show the conditions are needed; soundness of every result is unconditional; with validation duplicates are excluded.; C34_from_text_partial composes the lookup with the reading of the text file (C80)"
  },
  {
   "property": "C35",
   "status": "proved",
   "theorems": [
    "C35_clean",
    "C35_clean_idempotent",
    "C35_substitution",
    "C35_effective",
    "C35_whole_components"
   ],
   "note": "Lookup depends only on components and absoluteness; substitution equals a relation on whole components and is unique."
  },
  {
   "property": "C36",
   "status": "partial",
   "theorems": [
    "C36_best_partial",
    "C36_prefix",
    "C36_refuted"
   ],
   "note": "Best match proved when the path itself matches or every alias hit has a fixed prefix; refuted otherwise."
  },
  {
   "property": "C37",
   "status": "partial",
   "theorems": [
    "C37_roundtrip_partial",
    "C37_roundtrip_refuted",
    "C37_set_get",
    "C37_reparse_partial",
    "C37_user_unset_refuted"
   ],
   "note": "Round trip refuted for a trailing colon, proved otherwise; record laws of setters proved; re-parse proved for set, non-empty components; refuted: printing after unsetting the user is undefined behaviour."
  },
  {
   "property": "C38",
   "status": "partial",
   "theorems": [
    "C38_join",
    "C38_store",
    "C38_named",
    "C38_restored",
    "C38_refuted_blank",
    "C38_refuted_duplicates"
   ],
   "note": "Join exact for tables with unique names; a transaction flushed and read again gives the same users. \"Restores both tables\" holds when both tables have the same names; otherwise refuted (blank halves are added), as is uniqueness for files with duplicate names. Naming a user names both halves (C38_named). Allocation failures inside the join are not modelled."
  },
  {
   "property": "C39",
   "status": "partial",
   "theorems": [
    "C39_history_partial",
    "C39_latest",
    "C39_gone",
    "C39_flush",
    "C39_recovers",
    "C39_refuted_memory",
    "C39_refuted_serial",
    "C39_refuted_flush"
   ],
   "note": "Every transaction refines the collection specification as long as no copy fails while a record is replaced (refuted: freed record stays in the list) and the commit number can be read (refuted: changes are silently forgotten). Flush writes exactly the collection; a failed close is forgotten (refuted). While the file is unreadable every call fails and nothing stays behind (C39_recovers)."
  },
  {
   "property": "C40",
   "status": "partial",
   "theorems": [
    "C40_crash_partial",
    "C40_committed",
    "C40_anywhere",
    "C40_sandbox",
    "C40_succeeds",
    "C40_refuted_window",
    "C40_refuted_recovery",
    "C40_refuted_installed",
    "C40_refuted_copy"
   ],
   "note": "On one file system every crash point has the old or the new directory active, or none with both beside it; installed files are never torn. Plain statement refuted (window without active directory, lost on the next session; mixture of installed files; EXDEV copies). A commit that succeeds, on one or several file systems, has moved everything (C40_anywhere); the working copy is complete (C40_sandbox)."
  },
  {
   "property": "C41",
   "status": "partial",
   "theorems": [
    "C41_failure_partial",
    "C41_nothing_lost",
    "C41_refuted_rollback",
    "C41_refuted_backup",
    "C41_refuted_stuck",
    "C41_refuted_skipped"
   ],
   "note": "With one failing call the old directory is active and nothing is installed, except when installing fails (directory restored, files not: refuted) or only the backup remains (refuted). Nothing is lost with any number of failures."
  },
  {
   "property": "C42",
   "status": "partial",
   "theorems": [
    "C42_failed_load_partial",
    "C42_unreadable_image_refuted",
    "C42_clone_failure_refuted"
   ],
   "note": "Proved for readable images: policy, mode and SID answers stay, refused classes change nothing. Refuted: an unreadable image destroys the policy in force; running out of memory while cloning leaves the SID table shut down for ever."
  },
  {
   "property": "C43",
   "status": "partial",
   "theorems": [
    "C43_sets",
    "C43_ranges",
    "C43_contexts",
    "C43_semantic",
    "C43_refuted_semantic",
    "C43_constraints",
    "C43_refuted_constraints",
    "C43_conditions",
    "C43_roles",
    "C43_refuted_roles",
    "C43_table",
    "C43_table_read",
    "C43_refuted_table",
    "C43_refuted_old"
   ],
   "note": "Role and type sets, levels, ranges, contexts, constraints, conditional expressions, role rules: identical object back, and arbitrary bytes give only storable objects. Access vector tables (format of version 20 and later): same rules, count and lookups, nodes of one key in opposite order. Refuted: semantic levels (order), empty tables and expressions, types of names before 29, role transitions before 26, checks of the format before 20. Not modelled: writing the format before version 20, rule lists of conditionals and modules."
  },
  {
   "property": "C44",
   "status": "proved",
   "theorems": [
    "C44_context_length",
    "C44_mls_length"
   ],
   "note": ""
  },
  {
   "property": "C45",
   "status": "proved",
   "theorems": [
    "C45_user_range"
   ],
   "note": ""
  },
  {
   "property": "C46",
   "status": "partial",
   "theorems": [
    "C46_expand_refuted",
    "C46_expand_partial"
   ],
   "note": "Refuted for double outer negations (branches exchanged) and, through C14, for different operand orders; proved without these."
  },
  {
   "property": "C47",
   "status": "partial",
   "theorems": [
    "C47_boolean_history",
    "C47_stale_state_refuted"
   ],
   "note": "Proved for consistent stored states; refuted for a policy file whose stored state disagrees with its rule flags (reading never re-evaluates)."
  },
  {
   "property": "C48",
   "status": "proved",
   "theorems": [
    "C48_reorder"
   ],
   "note": ""
  },
  {
   "property": "C49",
   "status": "proved",
   "theorems": [
    "C49_reasons",
    "C49_denied_has_reason"
   ],
   "note": ""
  },
  {
   "property": "C50",
   "status": "proved",
   "theorems": [
    "C50_validate_transition",
    "C50_unknown_class"
   ],
   "note": ""
  },
  {
   "property": "C51",
   "status": "proved",
   "theorems": [
    "C51_denied_message",
    "C51_granted_message",
    "C51_audits_newest_answer_partial"
   ],
   "note": "Message contents proved for every decision; that the decision is the newest answer is C51_audits_newest_answer_partial (answers deciding all permissions)."
  },
  {
   "property": "C52",
   "status": "proved",
   "theorems": [
    "C52_create_sid"
   ],
   "note": ""
  },
  {
   "property": "C53",
   "status": "proved",
   "theorems": [
    "C53_check_access",
    "C53_granted_by_the_kernel"
   ],
   "note": ""
  },
  {
   "property": "C54",
   "status": "partial",
   "theorems": [
    "C54_contexts_converted",
    "C54_classes_kept",
    "C54_numbers_not_reused_partial",
    "C54_numbers_reused_refuted"
   ],
   "note": "Conversion and class checks proved; numbers are not reused after one load, but a SID dropped by a load is handed out again after the next load (refuted)."
  },
  {
   "property": "C55",
   "status": "proved",
   "theorems": [
    "C55_accepted_iff_consistent",
    "C55_best_is_unique",
    "C55_file_labels",
    "C55_failure_reported_refuted"
   ],
   "note": "Full statement; additionally a request that cannot make the SID of a genfs root succeeds with \"no labels\" (refuted theorem documents it)."
  },
  {
   "property": "C56",
   "status": "proved",
   "theorems": [
    "C56_object_labels"
   ],
   "note": "Address family and length checks of sepol_node_sid are not modelled: two entry points for IPv4 and IPv6."
  },
  {
   "property": "C57",
   "status": "partial",
   "theorems": [
    "C57_allow_exact",
    "C57_dontaudit_exact",
    "C57_xperms_exact_partial",
    "C57_enabled",
    "C57_type_rules_sound",
    "C57_type_rules_unique_partial",
    "C57_type_rules_kept_partial",
    "C57_conflict_real",
    "C57_conflict_found_partial",
    "C57_neverallow_copied",
    "C57_classes_dropped_refuted",
    "C57_xperms_merged_refuted",
    "C57_overwritten_refuted",
    "C57_neverallow_dropped_refuted"
   ],
   "note": "Allow, auditallow and dontaudit rules exact for every source; extended permissions and type rules exact outside conditionals, inside them if no conditional expression occurs twice, type rules completely only with one class per rule; all exceptions are real and refuted. Filename and range transitions are not modelled here."
  },
  {
   "property": "C58",
   "status": "partial",
   "theorems": [
    "C58_sound_partial",
    "C58_refuted"
   ],
   "note": "Soundness proved for every engine and database; completeness refuted."
  },
  {
   "property": "C59",
   "status": "partial",
   "theorems": [
    "C59_insert",
    "C59_expand_table",
    "C59_expand_accepts",
    "C59_refuted_conflict",
    "C59_round_trip",
    "C59_read",
    "C59_rewrite",
    "C59_read_old_partial",
    "C59_refuted_old",
    "C59_refuted_name",
    "C59_refuted_failed"
   ],
   "note": "Histories without conflicts, expansion (success gives exactly the rules; no conflict implies success), both formats, arbitrary bytes in the newer format: proved. Refuted: that conflicts are always refused by insertion, expansion and the older format (the resulting policy cannot be read back in the newer format); names beginning with NUL; failed insertions are counted. Expansion of the type sets is C56/C57; allocation failures are not modelled."
  },
  {
   "property": "C60",
   "status": "proved",
   "theorems": [
    "C60_line",
    "C60_lookup",
    "C60_no_file",
    "C60_lines",
    "C60_service",
    "C60_written",
    "C60_refuted_hash",
    "C60_refuted_blank"
   ],
   "note": "Line grammar in both directions, precedence of login, group and default lines, service file, and the file written by libsemanage for writable mappings. C60_refuted_hash and C60_refuted_blank show what happens to mappings outside that precondition."
  },
  {
   "property": "C61",
   "status": "proved",
   "theorems": [
    "C61_offers",
    "C61_list",
    "C61_bad_caller",
    "C61_never_refused",
    "C61_role",
    "C61_level",
    "C61_refuted_failsafe"
   ],
   "note": "The list, its order, the failsafe context, the choice by role and the explicit level. The kernel's answers are an arbitrary function. C61_refuted_failsafe: a failsafe file starting with a NUL byte makes the code access buf[-1]."
  },
  {
   "property": "C62",
   "status": "partial",
   "theorems": [
    "C62_line",
    "C62_sort",
    "C62_sort_any",
    "C62_idempotent",
    "C62_refuted_backslash",
    "C62_refuted_last"
   ],
   "note": "Proved for every text without NUL whose lines end in newlines and whose paths do not end in an unpaired backslash. Refuted as stated for a path without metacharacters ending in an unpaired backslash (read past the end of the string); text after the last line end is dropped silently."
  },
  {
   "property": "C63",
   "status": "partial",
   "theorems": [
    "C63_digest",
    "C63_specfiles",
    "C63_refuted_size",
    "C63_refuted_endian"
   ],
   "note": "SHA-1 of the data for little-endian hosts, any split into updates of at most 2^32-64 bytes each and any label database of less than 2^33-64 bytes; refuted beyond that size (write past the hash context) and for big-endian hosts (other digest)."
  },
  {
   "property": "C64",
   "status": "proved",
   "theorems": [
    "C64_digest",
    "C64_checksum"
   ],
   "note": "Digest and checksum text for all data under 2^61 bytes and every split; constants are checked against the primes they are defined from."
  },
  {
   "property": "C65",
   "status": "partial",
   "theorems": [
    "C65_texts_unique",
    "C65_skip",
    "C65_no_needless_rebuild",
    "C65_no_reason",
    "C65_refuted_ignore_cache"
   ],
   "note": "Proved when every module is looked at (module cache in use, or no module in CIL), up to an explicit SHA-256 collision; refuted with semanage_set_ignore_module_cache: the texts of modules in CIL are left out of the checksum."
  },
  {
   "property": "C66",
   "status": "partial",
   "theorems": [
    "C66_present",
    "C66_declared_roles",
    "C66_refuted_roles",
    "C66_refuted_order"
   ],
   "note": "Proved for all bases and modules in which no block declares a symbol after requiring it and, for roles and users, no source declares the symbol in one block and only requires it in another (C66_present); roles and users need no condition for presence of a symbol with an enabled declaring block. Both conditions are necessary (C66_refuted_roles, C66_refuted_order)."
  },
  {
   "property": "C67",
   "status": "partial",
   "theorems": [
    "C67_success",
    "C67_enabled",
    "C67_branch_in_force",
    "C67_terminates",
    "C67_refuted_message"
   ],
   "note": "Success, the exact set of enabled branches and termination are proved for all block lists over linked tables (under the conditions of C66). The error that names the missing requirement can be unset memory or of another block (C67_refuted_message). Requirements on classes cover every class up to the highest required one, as in the code."
  },
  {
   "property": "C68",
   "status": "partial",
   "theorems": [
    "C68_expanded",
    "C68_refuted_freed",
    "C68_refuted_endless"
   ],
   "note": "Proved for all role tables whose attributes do not contain themselves through others, and for every order. With circular attributes, which the compiler accepts, expansion reads freed memory or does not end (C68_refuted_freed, C68_refuted_endless)."
  },
  {
   "property": "C69",
   "status": "partial",
   "theorems": [
    "C69_logins",
    "C69_booleans",
    "C69_prefixes",
    "C69_ports",
    "C69_interfaces",
    "C69_fcontexts",
    "C69_users",
    "C69_reread",
    "C69_refuted_hash",
    "C69_refuted_comment",
    "C69_refuted_port",
    "C69_refuted_user",
    "C69_refuted_ends"
   ],
   "note": "Round trip proved for all lists of seven kinds of records with separable fields, and for every file accepted except records starting with '#', port numbers that overflow to negative and single ports whose context starts with '-'. The exceptions are real (C69_refuted_*): such records are lost or make the next file unreadable; two files lead to undefined behaviour. Nodes, infiniband records and the merge with the policy's own records are not modelled."
  },
  {
   "property": "C70",
   "status": "partial",
   "theorems": [
    "C70_exact",
    "C70_rest",
    "C70_gone",
    "C70_order",
    "C70_refuted_name"
   ],
   "note": "Proved for all trees of rules, blocks, deny rules and other statements, with types, attributes, self, notself and other on either side and classes, class maps and sets, provided no identifier of the policy has the name of an attribute that will be made; with such an identifier the code frees a bitmap twice (C70_refuted_name). Reading and resolving the policy, and turning the rules into the binary policy, are outside the model."
  },
  {
   "property": "C71",
   "status": "partial",
   "theorems": [
    "C71_only",
    "C71_refuses",
    "C71_sequence",
    "C71_found_partial",
    "C71_refuted_found",
    "C71_values"
   ],
   "note": "What is made is proved to be the only order that agrees with the statements, for all inputs; termination, refusal of contradictory or undecided statements and independence of the sequence are proved. That an order is found is proved when statements are runs of it (C71_found_partial); in general it can be refused in one sequence and made in another (C71_refuted_found). Resolving the names is outside the model."
  },
  {
   "property": "C72",
   "status": "partial",
   "theorems": [
    "C72_comparison",
    "C72_one_each_partial",
    "C72_conflicts_partial",
    "C72_narrowest_partial",
    "C72_files",
    "C72_sequence",
    "C72_refuted_categories",
    "C72_refuted_no_context",
    "C72_refuted_class",
    "C72_refuted_port"
   ],
   "note": "Proved for all rules: comparators consistent, one rule per object, acceptance exactly when rules for one object agree, narrowest range and longest prefix first, file order, independence of the sequence. Refuted in full: contexts that differ only in categories are taken as equal (cats_compare always returns 0), two file rules without context crash, genfscon for different classes of files at one path are merged, port numbers above 65535 are cut to 16 bits."
  },
  {
   "property": "C73",
   "status": "proved",
   "theorems": [
    "C73_exact",
    "C73_order",
    "C73_circles_refused",
    "C73_permissions",
    "C73_extended_permissions",
    "C73_refuted_all_of_nothing"
   ],
   "note": "Attributes of types, roles and users and category sets (C73_exact, C73_order, C73_circles_refused), permissions of a class (C73_permissions), extended permissions (C73_extended_permissions). C73_refuted_all_of_nothing records that (all) on a class without permissions is refused although its meaning is the empty set."
  },
  {
   "property": "C74",
   "status": "partial",
   "theorems": [
    "C74_tunable",
    "C74_expression",
    "C74_accepted",
    "C74_in_force_partial",
    "C74_start",
    "C74_refuted_in_force"
   ],
   "note": "Proved without bounds: which tunableif and booleanif statements are accepted, that a tunableif leaves exactly the statements of the block its condition selects, that the expression stored for a booleanif means what was written for all values of the booleans, and that the stored state is the initial one. The rules in force are proved equal to those selected when conditions over the same booleans mention them in the same order; without that the claim is refuted (C74_refuted_in_force): (and a (not b)) and (and b (not a)) are merged."
  },
  {
   "property": "C75",
   "status": "partial",
   "theorems": [
    "C75_exact",
    "C75_line_marks",
    "C75_safe",
    "C75_refuted_line_marks",
    "C75_refuted_carriage_return"
   ],
   "note": "C75_exact: for every text without line marks and carriage returns, acceptance and the tree are exactly those of the grammar. C75_line_marks: properly nested line marks are read as the grammar says (token level). C75_safe: holds for all texts. Refuted: line marks that cross parentheses are accepted and put later statements into an earlier one (C75_refuted_line_marks); with lines ended by a bare carriage return a comment with one quote can swallow statements (C75_refuted_carriage_return)."
  },
  {
   "property": "C76",
   "status": "partial",
   "theorems": [
    "C76_round_trip",
    "C76_meaning",
    "C76_refuted_name",
    "C76_refuted_empty",
    "C76_refuted_deep",
    "C76_only_expressions"
   ],
   "note": "Proved through the modelled writer, lexer, parser, expression builder and translation: C76_round_trip for every well formed expression whose boolean names are readable symbols other than the expression keywords, nested less than 4095 deep; C76_meaning. Refuted without these conditions: a boolean named all or range (C76_refuted_name), a conditional without rules, which is written without branches (C76_refuted_empty), and very deep nesting (C76_refuted_deep). The text of the rules in the branches is a parameter."
  },
  {
   "property": "C77",
   "status": "partial",
   "theorems": [
    "C77_accepted",
    "C77_accepted_transition",
    "C77_separate",
    "C77_one_reading",
    "C77_constraints",
    "C77_decision",
    "C77_transitions",
    "C77_refuted_l1",
    "C77_refuted_names",
    "C77_refuted_deep"
   ],
   "note": "Proved: C77_accepted and C77_accepted_transition (exactly which expressions are accepted), C77_one_reading, C77_separate, C77_constraints, C77_transitions and C77_decision (through the modelled access decision of C16) for statements whose expressions are legal. Refuted without that condition: l1 on the right side of any relation is not checked (C77_refuted_l1), dom, domby and incomp with a name are not refused (C77_refuted_names), the depth of transition rules is not checked (C77_refuted_deep). C77_decision covers source types without bounds."
  },
  {
   "property": "C78",
   "status": "partial",
   "theorems": [
    "C78_round_trip",
    "C78_refuted_complement",
    "C78_refuted_operand",
    "C78_refuted_refused"
   ],
   "note": "The round trip is proved at the level of texts, for policies whose sets of names can be written. Refuted for complements and differences of types (the names kept are those before the complement), for a set of one type called like an operand, for empty sets and for permissions called like operators. Role dominance, declarations of names and the numbering of levels in the new policy are assumed to correspond."
  },
  {
   "property": "C79",
   "status": "partial",
   "theorems": [
    "C79_read",
    "C79_one_meaning",
    "C79_subset",
    "C79_sorted",
    "C79_no_wild_store",
    "C79_refuted_arguments"
   ],
   "note": "Read exactly as written, for every text (C79_read, C79_one_meaning, C79_subset), also after sorting (C79_sorted); no line stores through a missing argument. Not as claimed: for a line of two words followed by a blank one argument more than was passed is taken with va_arg, which ISO C leaves undefined (C79_refuted_arguments). Not modelled: opening the files, the insertion of a specification (LabelModel), the checks of contexts, the binary files."
  },
  {
   "property": "C80",
   "status": "partial",
   "theorems": [
    "C80_read_partial",
    "C80_pairs",
    "C80_round_trip",
    "C80_refuted_stale",
    "C80_refuted_uninitialised",
    "C80_refuted_long"
   ],
   "note": "Exact for files whose lines fit the buffer and which do not end within a first word; every file of pairs is read back. Refuted outside: an unterminated last line of one word takes the target of the line before (C80_refuted_stale) or reads uninitialised bytes (C80_refuted_uninitialised); the end of a long comment is read as a line (C80_refuted_long)."
  },
  {
   "property": "C81",
   "status": "proved",
   "theorems": [
    "C81_media",
    "C81_x",
    "C81_database",
    "C81_array",
    "C81_one"
   ],
   "note": "Exact for every file; fnmatch is an arbitrary function. Media and X files have at most UINT_MAX / sizeof(entry) lines (the reader stops there, C81_array holds beyond)."
  },
  {
   "property": "C82",
   "status": "partial",
   "theorems": [
    "C82_answers",
    "C82_first_partial",
    "C82_refuted_devices",
    "C82_refuted_reused"
   ],
   "note": "The table gives the answer the history demands, for all histories (C82_answers); walks over one device without paths going away label every inode as claimed (C82_first_partial). Refuted otherwise: numbers of different devices are taken for one (C82_refuted_devices); a file with a number used again is left unlabelled (C82_refuted_reused). Walks of several threads, stopping at errors and failing lsetfilecon are not modelled."
  },
  {
   "property": "C83",
   "status": "partial",
   "theorems": [
    "C83_relabel_partial",
    "C83_one",
    "C83_again",
    "C83_unlabelled",
    "C83_refuted_null",
    "C83_customizable_partial",
    "C83_refuted_last",
    "C83_refuted_nul"
   ],
   "note": "Exact and idempotent for contexts with user, role and type. Refuted otherwise: a specification without type makes strcmp read NULL (C83_refuted_null). The customizable types are the lines if each is ended by a newline, has no NUL and fits a page; without the last newline a letter is lost (C83_refuted_last) and a NUL makes it store before the buffer (C83_refuted_nul)."
  },
  {
   "property": "C84",
   "status": "partial",
   "theorems": [
    "C84_read_exactly",
    "C84_read_defined",
    "C84_round_trip",
    "C84_write_refused",
    "C84_info_base",
    "C84_info_module",
    "C84_refuted_info_short",
    "C84_link"
   ],
   "note": "Reading is exact (C84_read_exactly), never leaves a text unset below 4 GiB (C84_read_defined), and gives back what was written (C84_round_trip) for any policy writer and reader that fit together; the binary policy itself is a parameter. The short look is right if the last text has at least four bytes (C84_info_base, C84_info_module) and refuted otherwise (C84_refuted_info_short). Linking: C84_link, with the linker of policies a parameter. Files of 4 GiB and more, where offsets wrap, are not covered."
  },
  {
   "property": "C85",
   "status": "proved",
   "theorems": [
    "C85_outcome",
    "C85_active",
    "C85_info",
    "C85_disabled_is_installed",
    "C85_rebuild",
    "C85_extract_cil",
    "C85_extract_source",
    "C85_extract_refuted"
   ],
   "note": "over arbitrary operation sequences by refinement to the history of successful operations; system calls are taken not to fail and compilers are a parameter. C85_extract_refuted: source extraction of a module installed as a.CIL over a.pp gives the old a.pp"
  },
  {
   "property": "C86",
   "status": "proved",
   "theorems": [
    "C86_replace",
    "C86_home_dir",
    "C86_home_root",
    "C86_username",
    "C86_user",
    "C86_all_or_nothing",
    "C86_refuted_home",
    "C86_refuted_blank",
    "C86_refuted_path"
   ],
   "note": "The user's entry (home, prefix, SELinux user, level, role) is given; how the list of users is made is not part of the property. C86_refuted_* show the exceptions named in the quantifier are needed."
  },
  {
   "property": "C87",
   "status": "proved",
   "theorems": [
    "C87_written",
    "C87_set",
    "C87_get",
    "C87_truth",
    "C87_translation",
    "C87_refuted_stale",
    "C87_refuted_spelling",
    "C87_refuted_refused"
   ],
   "note": "Theorems on translated calls assume a daemon whose answers do not change (C87_refuted_stale shows why); C87_translation holds for any daemon."
  },
  {
   "property": "C88",
   "status": "proved",
   "theorems": [
    "C88_mode",
    "C88_no_mode",
    "C88_type",
    "C88_no_type",
    "C88_default_type",
    "C88_no_default_type",
    "C88_refuted_require",
    "C88_refuted_last_line",
    "C88_refuted_blank"
   ],
   "note": "For files whose lines end in a newline and fit the buffers; C88_refuted_* show what happens otherwise and that REQUIRESEUSERS is inverted."
  },
  {
   "property": "C89",
   "status": "proved",
   "theorems": [
    "C89_split",
    "C89_same_for_users",
    "C89_refuted_lost",
    "C89_refuted_twice",
    "C89_refuted_long"
   ],
   "note": "For lines that fit the buffer (C89_refuted_long). C89_refuted_lost: lines with only ROLE in them are used nowhere."
  }
 ]
}
{"id": "C01", "title": "Bitmap reads return the last write", "statement": "Start from an empty extensible bitmap and perform any sequence of ebitmap_set_bit(e, bit, value) calls. Every call with bit < 2^32-64 succeeds, and afterwards ebitmap_get_bit(e, b) is 1 exactly when the last successful write to b stored a non-zero value (0 if b was never written). A rejected write changes nothing.", "quantifier": "all finite sequences of (bit, value) writes with 32-bit bit numbers, and all bit numbers queried afterwards", "why_tests_cant": "the behaviour depends on the whole write history: nodes are inserted before, between and after, and freed when their word becomes zero; a test fixes a few histories", "anchors": ["libsepol/src/ebitmap.c: ebitmap_set_bit, ebitmap_get_bit", "libsepol/include/sepol/policydb/ebitmap.h: ebitmap_init"]}
{"id": "C02", "title": "Bitmap equality is set equality", "statement": "For any two bitmaps built by any mixture of the public constructors (set_bit, cpy, or, and, xor, not, andnot, union, init_range, read), ebitmap_cmp returns 1 exactly when the two bitmaps have the same members.", "quantifier": "all pairs of bitmaps reachable through the API, whatever order they were built in", "why_tests_cant": "cmp compares node lists, not members; it is right only because every constructor produces one canonical list, which is an invariant over all construction histories", "anchors": ["libsepol/src/ebitmap.c: ebitmap_cmp, ebitmap_or, ebitmap_and, ebitmap_xor, ebitmap_not, ebitmap_andnot, ebitmap_cpy, ebitmap_init_range, ebitmap_read"]}
{"id": "C03", "title": "Bitmap algebra is set algebra", "statement": "For all valid bitmaps a and b: or/union, and, xor, andnot(max), not(max) produce exactly the union, intersection, symmetric difference, difference and complement below max of the member sets; contains(a,b) is 'b subset of a', match_any(a,b) is 'intersection non-empty', is_empty is emptiness, cardinality is the number of members, hamming_distance is the size of the symmetric difference and highest_set_bit is the maximum member (0 if none).", "quantifier": "all pairs of valid bitmaps and all max bit numbers up to 2^32-64", "why_tests_cant": "the merge loops walk two sparse lists with every relative alignment of nodes; 2^(2^32) possible sets", "anchors": ["libsepol/src/ebitmap.c: ebitmap_or, ebitmap_union, ebitmap_and, ebitmap_xor, ebitmap_not, ebitmap_andnot, ebitmap_contains, ebitmap_match_any, ebitmap_cardinality, ebitmap_hamming_distance, ebitmap_highest_set_bit"]}
{"id": "C04", "title": "Bitmap iteration visits each member once, in order", "statement": "Iterating the positive bits of any valid bitmap visits exactly its members, each once, in strictly increasing order, and terminates.", "quantifier": "all valid bitmaps", "why_tests_cant": "the iterator jumps across gaps between nodes; correctness depends on node layout, for every layout", "anchors": ["libsepol/include/sepol/policydb/ebitmap.h: ebitmap_start, ebitmap_next, ebitmap_node_get_bit, ebitmap_for_each_positive_bit"]}
{"id": "C05", "title": "Bitmap on-disk format round trip and rejection", "statement": "Serialising any valid bitmap and reading the bytes back yields an equal bitmap and consumes exactly the bytes written; and for every byte string, reading either fails or returns a bitmap in canonical form (sorted, aligned, no empty words, exact high bit), so no byte string can produce a malformed bitmap.", "quantifier": "all valid bitmaps; all byte strings", "why_tests_cant": "the byte strings are attacker-controlled policy files; the space is unbounded", "anchors": ["libsepol/src/ebitmap.c: ebitmap_read", "libsepol/src/write.c: ebitmap_write"]}
{"id": "C06", "title": "Bitmap complement terminates for every width", "statement": "ebitmap_not(dst, e, maxbit) terminates for every 32-bit maxbit and yields the complement of e below maxbit.", "quantifier": "all valid bitmaps and all 32-bit maxbit values", "why_tests_cant": "the failure needs maxbit within 64 of 2^32, where a 32-bit cursor wraps; an exhaustive test would have to walk 2^26 nodes", "anchors": ["libsepol/src/ebitmap.c: ebitmap_not"]}
{"id": "C07", "title": "MLS dominance is a lattice order", "statement": "Level dominance is reflexive, antisymmetric (up to level equality) and transitive; two levels are 'incomparable' exactly when neither dominates; a range contains another exactly when its low is dominated by the other's low and its high dominates the other's high; containment is itself a partial order; between is the conjunction of two dominances.", "quantifier": "all triples of levels with arbitrary sensitivities and category sets", "why_tests_cant": "order laws are universally quantified over three unbounded category sets", "anchors": ["libsepol/include/sepol/policydb/mls_types.h: mls_level_eq, mls_level_dom, mls_level_incomp, mls_level_between, mls_range_contains"]}
{"id": "C08", "title": "Greatest-lower/least-upper range computation is sound", "statement": "When mls_range_glblub succeeds on two valid ranges the result is a valid range (high dominates low) whose sensitivities are exactly the intersection of the two sensitivity intervals; it fails with EINVAL exactly when those intervals are disjoint.", "quantifier": "all pairs of valid ranges", "why_tests_cant": "unbounded category sets; validity of the output is needed for every later permission check", "anchors": ["libsepol/include/sepol/policydb/mls_types.h: mls_range_glblub"]}
{"id": "C09", "title": "MLS range strings denote the range they were printed from", "statement": "Converting a valid MLS range to its string form and parsing the string under the same policy yields an equal range.", "quantifier": "all policies' category tables and all valid ranges", "why_tests_cant": "the printer compresses runs of categories while the bitmap iterator skips absent words; whether the output denotes the same set depends on where the set has gaps, over all sets", "anchors": ["libsepol/src/mls.c: mls_sid_to_context, mls_context_to_sid, mls_to_string, mls_from_string", "libsepol/include/sepol/policydb/ebitmap.h: ebitmap_for_each_bit"]}
{"id": "C10", "title": "Only authorised contexts are accepted", "statement": "A context is accepted by policydb_context_isvalid exactly when user, role and type exist, the role may take the type, the user may take the role (object_r excepted) and, with MLS on, the range is well formed, uses only categories associated with its sensitivities and lies inside the user's authorised range.", "quantifier": "all policies and all contexts (arbitrary component values, including out of range ones)", "why_tests_cant": "validity is a conjunction over tables of arbitrary size; an over-acceptance may need a specific combination of role, user and category", "anchors": ["libsepol/src/context.c: context_is_valid", "libsepol/src/mls.c: mls_context_isvalid"]}
{"id": "C11", "title": "Access vector table is a faithful map", "statement": "For any sequence of inserts into an access vector table of any size, a search for a key returns the datum stored by the successful insert of that key and kind, and nothing if there was none; a second insert of an existing key and kind is rejected with SEPOL_EEXIST and changes nothing; enumeration visits every stored entry exactly once.", "quantifier": "all sequences of inserts and searches, all keys, all power-of-two table sizes", "why_tests_cant": "early exit on chain ordering means one misplaced node hides all later ones; only an invariant over all histories rules it out", "anchors": ["libsepol/src/avtab.c: avtab_insert, avtab_insert_nonunique, avtab_search, avtab_search_node, avtab_search_node_next, avtab_map, avtab_hash"]}
{"id": "C12", "title": "Extended-permission rules are all enumerated", "statement": "For any table history, walking avtab_search_node/avtab_search_node_next for an extended-permission key yields every stored rule of that source, target, class and kind exactly once, regardless of how many rules of other kinds share the chain.", "quantifier": "all table histories containing repeated extended-permission keys", "why_tests_cant": "the walk stops at the first key that sorts after the search key; completeness depends on the chain order produced by every possible insertion order", "anchors": ["libsepol/src/avtab.c: avtab_insert, avtab_search_node, avtab_search_node_next"]}
{"id": "C13", "title": "Conditional expressions evaluate to their boolean meaning", "statement": "For every boolean expression and every boolean assignment, evaluating the reverse-Polish form returns the truth value of the expression, or -1 (undefined) exactly when the evaluation would need more than the maximum stack depth or the form is malformed; it never reads outside the stack.", "quantifier": "all expressions (any size) and all assignments", "why_tests_cant": "infinitely many expressions; depth and underflow handling depend on shape", "anchors": ["libsepol/src/conditional.c: cond_evaluate_expr"]}
{"id": "C14", "title": "Conditionals are merged only when equivalent", "statement": "When the library decides two conditionals have equal expressions (and therefore merges their rules under one condition), the two expressions have the same truth value under every assignment of the booleans.", "quantifier": "all pairs of normalised conditional expressions and all boolean assignments", "why_tests_cant": "equality is decided on a precomputed truth table indexed by order of first occurrence; a counterexample needs two expressions that mention the same booleans in different orders", "anchors": ["libsepol/src/conditional.c: cond_expr_equal, cond_node_find, cond_node_search, cond_normalize_expr", "libsepol/src/expand.c: cond_node_copy", "libsepol/cil/src/cil_binary.c: cil_booleanif_to_policydb"]}
{"id": "C15", "title": "Normalising a conditional preserves which rules are active", "statement": "Normalising a conditional (removing an outer negation and swapping the branches, precomputing the truth table) does not change which rule list is active under any assignment of booleans, and leaves the booleans' own values unchanged.", "quantifier": "all conditionals and all assignments", "why_tests_cant": "quantifies over expressions and assignments; the swap and the strip must agree for every shape", "anchors": ["libsepol/src/conditional.c: cond_normalize_expr, evaluate_cond_node"]}
{"id": "C16", "title": "Access decision equals the policy's rules", "statement": "The allowed vector computed for (source context, target context, class) contains a permission exactly when some enabled allow rule for an attribute/type of the source and of the target grants it, no constraint on that permission is violated, role-change is authorised for process transition/dyntransition, and it is also granted to the bounding parent types; auditallow and auditdeny are likewise the union / intersection of the matching rules.", "quantifier": "all policies, contexts and classes", "why_tests_cant": "the decision is a union over the product of two attribute sets, two tables and all booleans; tests sample a few points", "anchors": ["libsepol/src/services.c: context_struct_compute_av, type_attribute_bounds_av", "libsepol/src/conditional.c: cond_compute_av"]}
{"id": "C17", "title": "Constraint expressions evaluate to their logical meaning and fail closed", "statement": "Evaluating a constraint's reverse-Polish expression on a pair of contexts returns the truth value of the logical formula; a malformed expression never results in the constraint being treated as satisfied.", "quantifier": "all constraint expressions, well formed or not, and all context pairs", "why_tests_cant": "unbounded expression shapes, including malformed ones from crafted policies", "anchors": ["libsepol/src/services.c: constraint_expr_eval_reason, context_struct_compute_av"]}
{"id": "C18", "title": "A bounded type never exceeds its bound", "statement": "Every permission in the decision for a source type that is bounded by another type is also in the decision for the bounding type, on the bounding type of the target if the target has one and on the target otherwise; this holds through every level of nesting, and the computation terminates for every acyclic bounds relation.", "quantifier": "all policies with acyclic type bounds, all context pairs", "why_tests_cant": "nesting depth and combinations of bounded source/target are unbounded", "anchors": ["libsepol/src/services.c: type_attribute_bounds_av, context_struct_compute_av"]}
{"id": "C19", "title": "Policy optimisation preserves every decision", "statement": "For every policy and every assignment of booleans, after sepol_policydb_optimize the allowed, auditallow and auditdeny vectors and extended-permission sets of every (source type, target type, class) are the same as before; type rules are untouched.", "quantifier": "all policies (all rule tables, attribute maps, conditionals) and all boolean assignments and queries", "why_tests_cant": "a rule is dropped because others cover it, while those others are being shrunk during the same pass; correctness is a statement about all orders and all overlaps", "anchors": ["libsepol/src/optimize.c: policydb_optimize, optimize_avtab, optimize_cond_avtab, optimize_cond_av_list, is_avrule_redundant, is_cond_rule_redundant, process_avtab_datum, build_type_map"]}
{"id": "C20", "title": "Neverallow checking is sound and complete", "statement": "check_assertions reports failure exactly when some allow rule (conditional or not) grants, for some concrete source and target type, a permission forbidden by some neverallow rule, with self / not-self targets interpreted per type. For neverallowxperm rules: success means that under no setting of the booleans may a process use a forbidden ioctl or netlink command, either because an allowxperm rule contains it or because no allowxperm rule restricts the permission at all.", "quantifier": "all policies, all neverallow rules, all flag combinations, all settings of the booleans", "why_tests_cant": "both false negatives and false positives need a particular interplay of attributes, self, rule layout and conditional branches", "anchors": ["libsepol/src/assertion.c: check_assertions, check_assertion, check_assertion_avtab_match, check_assertion_extended_permissions, report_assertion_failures, report_assertion_avtab_matches, report_assertion_extended_permissions"]}
{"id": "C21", "title": "Bounds checking at policy build is exact", "statement": "hierarchy_check_constraints accepts a policy exactly when, whatever branch of each conditional is in force, no bounded type may do anything that its bound may not do to the bound of the target, no bounded role has a type that its bound lacks and no bounded user has a role that its bound lacks. A type, role or user is bounded by a declaration or by a dotted name; a dotted name whose parent does not exist is always reported.", "quantifier": "all policies, type attribute maps, rule tables, conditionals and branch choices, all symbol tables", "why_tests_cant": "depends on the product of attribute expansion, bounded targets and rule tables, conditional and unconditional, over all policies", "anchors": ["libsepol/src/hierarchy.c:37-431 (bounds_insert_helper .. bounds_check_type), 469-596, 598-701"]}
{"id": "C22", "title": "Symbol hash table is a finite map under all histories", "statement": "For any sequence of insert, remove and search operations on a hash table of any initial size, including the automatic resizes they trigger, search returns the datum of the live insert for the key; inserting an existing key fails with SEPOL_EEXIST leaving the table unchanged; the element count is exact; map visits each live entry once.", "quantifier": "all operation sequences, any hash function and any total key order", "why_tests_cant": "resizing redistributes every chain; order and completeness must survive every history", "anchors": ["libsepol/src/hashtab.c: hashtab_insert, hashtab_remove, hashtab_search, hashtab_map, hashtab_check_resize", "libsepol/src/symtab.c: symhash, symcmp"]}
{"id": "C23", "title": "SIDs are stable and unique", "statement": "In any history of context-to-SID requests and SID insertions, equal contexts always get the same SID, different contexts get different SIDs, a SID once issued always maps back to the same context, and SIDs never wrap; an unknown SID maps to the unlabeled context.", "quantifier": "all histories of requests, any number of contexts", "why_tests_cant": "depends on the entire allocation history, including exhaustion of the 32-bit space", "anchors": ["libsepol/src/sidtab.c: sepol_sidtab_context_to_sid, sepol_sidtab_insert, sepol_sidtab_search"]}
{"id": "C24", "title": "Context strings round trip", "statement": "For every valid context (without MLS gaps), context_to_string followed by context_from_string yields the same context, and a string is rejected unless it names existing user, role and type (and range when MLS is enabled).", "quantifier": "all policies whose names contain no ':' and all valid contexts", "why_tests_cant": "quantifies over all symbol tables and contexts", "anchors": ["libsepol/src/context.c: context_to_string, context_from_string, context_from_record, context_to_record", "libsepol/src/context_record.c: sepol_context_from_string, sepol_context_to_string"]}
{"id": "C25", "title": "Type set expansion denotes the written set", "statement": "Expanding a type set {types and attributes} minus {negated types and attributes}, with '*' or '~', yields exactly the types denoted by the set expression.", "quantifier": "all policies, type sets and flag combinations", "why_tests_cant": "set expressions over arbitrary attribute membership", "anchors": ["libsepol/src/expand.c: type_set_expand, role_set_expand"]}
{"id": "C26", "title": "New-object labelling follows the documented precedence", "statement": "For create, member and relabel requests the SID handed back maps to the one context given by the documented precedence: user from the class default or the source (the target for member requests); role from a role transition (create only), else the class default, else the source for processes and object_r otherwise; type from a permanent type rule, else an enabled conditional rule, else the class default, else the source for processes and the target otherwise; with MLS the range from a range transition (create only), else the class default_range, else the source's range (processes) or low level. The context is authorised unless the mode is permissive. Requests are answered whenever such a context exists, memory suffices and SIDs are left; refused requests change nothing.", "quantifier": "all policies, context pairs and classes, all SID tables", "why_tests_cant": "interaction of five override mechanisms over arbitrary tables", "anchors": ["libsepol/src/services.c: sepol_compute_sid, sepol_transition_sid, sepol_member_sid, sepol_change_sid", "libsepol/src/mls.c: mls_compute_sid"]}
{"id": "C27", "title": "Userspace AVC never grants what the policy server denied", "statement": "In enforcing mode, in any history of avc_has_perm, reset, and policy-server answers, a permission check returns 0 only if the most recent answer fetched from the server since the last reset for that (source, target, class) granted every requested permission (or marked the domain permissive).", "quantifier": "all histories of checks, resets, server answers (including partial 'decided' vectors) and cache evictions", "why_tests_cant": "the cache evicts and re-inserts nodes; a stale entry resurfacing needs a long specific history", "anchors": ["libselinux/src/avc.c: avc_has_perm_noaudit, avc_lookup, avc_insert, avc_claim_node, avc_reclaim_node, avc_reset"]}
{"id": "C28", "title": "A revoked permission stays revoked", "statement": "After avc_ss_revoke of a permission for (source, target, class), no cached entry grants it: a later enforcing check of it is denied unless the policy server is consulted again with a sequence number at least that of the revocation.", "quantifier": "all histories of checks, evictions and notifications", "why_tests_cant": "needs a history where the key occupies two cache nodes and the newer is evicted", "anchors": ["libselinux/src/avc.c: avc_control, avc_update_cache, avc_update_node, avc_ss_revoke, avc_search_node"]}
{"id": "C29", "title": "AVC cache stays within capacity and structurally sound", "statement": "In every history the number of cache nodes in use plus the free list is constant, every cached entry sits in the slot of its hash, and inserting into a full cache evicts exactly one entry, always succeeding when at least one node exists; the least-recently-used scan terminates.", "quantifier": "all histories", "why_tests_cant": "pointer surgery over 512 chains and an LRU hint; only an invariant covers every history", "anchors": ["libselinux/src/avc.c: avc_claim_node, avc_reclaim_node, avc_search_node, avc_reset"]}
{"id": "C30", "title": "Userspace SIDs identify contexts", "statement": "avc_context_to_sid returns the same SID for equal context strings and different SIDs for different strings in any history, and avc_sid_to_context returns the original string.", "quantifier": "all histories of lookups", "why_tests_cant": "history dependent with hash collisions", "anchors": ["libselinux/src/avc_sidtab.c: sidtab_context_to_sid, sidtab_context_lookup, sidtab_insert, sidtab_hash"]}
{"id": "C31", "title": "Status page reads are consistent snapshots", "statement": "Under any interleaving with a kernel writer that follows the sequence-lock protocol, the enforcing/policyload/deny_unknown values returned by the status functions are values that were simultaneously published by one completed update.", "quantifier": "all interleavings of reader steps and writer steps", "why_tests_cant": "schedules are unbounded; torn reads need exact timing", "anchors": ["libselinux/src/sestatus.c: read_sequence, selinux_status_updated, selinux_status_getenforce, selinux_status_policyload, selinux_status_deny_unknown"]}
{"id": "C32", "title": "Mode changes are noticed", "statement": "After the AVC is opened, once the kernel has switched enforcing mode, the next permission check (which polls the status page) uses the new mode.", "quantifier": "all interleavings of avc_open, setenforce events and permission checks", "why_tests_cant": "the lost update needs the mode to change between opening and the first poll", "anchors": ["libselinux/src/sestatus.c: selinux_status_updated, selinux_status_open", "libselinux/src/avc.c: avc_init_internal, avc_has_perm_noaudit"]}
{"id": "C33", "title": "Class and permission mapping preserves decisions", "statement": "With any class mapping installed, a permission bit i of a mapped class is reported allowed exactly when the kernel allowed the corresponding kernel permission, or the permission is unknown to the policy and unknown permissions are allowed; unmap followed by map is the identity on defined, distinct permissions; bits beyond the mapping are never allowed and always audited.", "quantifier": "all mappings, classes and kernel decisions", "why_tests_cant": "all 32-bit vectors times all mappings", "anchors": ["libselinux/src/mapping.c: unmap_class, unmap_perm, map_class, map_perm, map_decision"]}
{"id": "C34", "title": "File label lookup returns the documented best specification", "statement": "Looking a path up in the specification tree returns the same result as scanning the flat list of specifications: an applicable literal specification if there is one, otherwise the last applicable regular-expression specification in input order.", "quantifier": "all specification lists, all paths and file kinds, any regular-expression engine", "why_tests_cant": "the tree prunes candidates by path stem and skips ancestors by line number; equivalence must hold for every list and path", "anchors": ["libselinux/src/label_file.c: lookup_check_node, lookup_find_deepest_node, search_child_node, search_literal_spec, sort_spec_node", "libselinux/src/label_file.h: insert_spec, regex_simplify, regex_has_meta_chars"]}
{"id": "C35", "title": "Path canonicalisation and substitution are stable", "statement": "Duplicate slashes and one trailing slash never influence a lookup: a path and its cleaned form give the same result, cleaning is idempotent; path substitution replaces only whole path components (never in the middle of a component) and the first applicable alias wins.", "quantifier": "all key strings and all substitution tables", "why_tests_cant": "unbounded strings with slashes in all positions", "anchors": ["libselinux/src/label_file.c: lookup_all, selabel_apply_subs, selabel_sub_key"]}
{"id": "C36", "title": "Best-match lookup finds a match whenever one exists", "statement": "selabel_lookup_best_match over a path and its aliases returns a specification whenever the path or any alias matches one; it returns an exact match if there is one and otherwise one with the longest fixed prefix.", "quantifier": "all specification sets, keys and alias lists", "why_tests_cant": "corner cases in prefix comparison only show for particular combinations", "anchors": ["libselinux/src/label_file.c: lookup_best_match"]}
{"id": "C37", "title": "context_t round trip", "statement": "For every string accepted by context_new, context_str returns the same string, and the component setters and getters behave as a record: a successful set is returned by get and changes no other component; context_str of the result re-parses to the same components.", "quantifier": "all strings and all sequences of setter calls", "why_tests_cant": "arbitrary strings and setter histories", "anchors": ["libselinux/src/context.c: context_new, context_str, set_comp, context_type_set, context_range_set"]}
{"id": "C38", "title": "Joined user databases lose nothing", "statement": "Caching the join of two record tables yields exactly one joined record for every key present in either, combining the halves with equal key; flushing an unmodified-content join back to its halves restores both tables' records.", "quantifier": "all pairs of record lists with any key order", "why_tests_cant": "a merge of two sorted lists of any length with arbitrary overlap", "anchors": ["libsemanage/src/database_join.c: dbase_join_cache, dbase_join_flush", "libsemanage/src/database_llist.c: dbase_llist_cache_prepend, dbase_llist_list, dbase_llist_modify"]}
{"id": "C39", "title": "Record list database behaves as a keyed collection", "statement": "For any history of add/modify/set/del/clear on the cached record list, query returns the most recently stored record of the key, exists agrees with query, count is exact and iteration visits records in insertion order.", "quantifier": "all histories of operations on any keys", "why_tests_cant": "history dependent doubly linked list surgery", "anchors": ["libsemanage/src/database_llist.c: dbase_llist_add, dbase_llist_set, dbase_llist_modify, dbase_llist_del, dbase_llist_clear, dbase_llist_query, dbase_llist_count, dbase_llist_iterate"]}
{"id": "C40", "title": "Committing a policy store is crash-atomic", "statement": "If the machine or process stops at any point of a commit, the active policy store afterwards is either completely the old one or completely the new one.", "quantifier": "all crash points during commit, all store contents", "why_tests_cant": "crash points between individual system calls cannot be enumerated reliably by tests", "anchors": ["libsemanage/src/semanage_store.c: semanage_commit_sandbox, semanage_rename, semanage_install_final_tmp, semanage_make_sandbox"]}
{"id": "C41", "title": "A failed commit leaves the previous policy in force", "statement": "If semanage_commit returns failure then the active store and the installed policy files are those from before the commit.", "quantifier": "all points at which a system call inside commit may fail", "why_tests_cant": "requires injecting a failure at every call and examining the resulting files", "anchors": ["libsemanage/src/semanage_store.c: semanage_commit_sandbox, semanage_install_final_tmp"]}
{"id": "C42", "title": "A failed policy load leaves the running policy usable", "statement": "When sepol_load_policy fails for any reason, the policy and SID table that were active before remain active, unchanged and usable.", "quantifier": "all failure points of a load, all images", "why_tests_cant": "needs a failure at each allocation and parse step", "anchors": ["libsepol/src/services.c: sepol_load_policy, convert_context, clone_sid", "libsepol/src/sidtab.c: sepol_sidtab_map_remove_on_error, sepol_sidtab_set, sepol_sidtab_shutdown"]}
{"id": "C43", "title": "Policy records round trip through the binary format", "statement": "Writing an access-vector rule, conditional expression, MLS level/range, constraint expression or type/role set and reading it back under the same policy version yields the same object; reading arbitrary bytes either fails or gives an object satisfying the reader's invariants.", "quantifier": "all objects representable in the format version; all byte strings", "why_tests_cant": "unbounded objects and attacker-controlled bytes", "anchors": ["libsepol/src/write.c: avtab_write_item, cond_write_node, mls_write_level, mls_write_range_helper, write_cons_helper", "libsepol/src/avtab.c: avtab_read_item", "libsepol/src/policydb.c: mls_read_level, mls_read_range_helper, read_cons_helper"]}
{"id": "C44", "title": "Printed contexts fit their buffers exactly", "statement": "The buffer size computed before printing an MLS range or a whole security context equals the number of characters the printer then writes (plus the terminating NUL), for every policy and every range, so no printed context overruns its buffer.", "quantifier": "all policies (arbitrary names) and all ranges and contexts, including sets with gaps", "why_tests_cant": "the length computation and the printer are separate loops over arbitrary bitmaps; a mismatch shows only for particular run/gap patterns", "anchors": ["libsepol/src/mls.c: mls_compute_context_len, mls_sid_to_context, mls_to_string", "libsepol/src/context.c: context_to_string"]}
{"id": "C45", "title": "The range offered to a reachable user stays authorised", "statement": "When the MLS range for a user reachable from a source context is computed successfully, its low level dominates the user's low level, its high level is dominated both by the user's clearance and by the source context's clearance, and the range is well formed.", "quantifier": "all source ranges and all well-formed user ranges and default levels", "why_tests_cant": "six combinations of comparisons over a partial order with incomparable elements", "anchors": ["libsepol/src/mls.c: mls_setup_user_range"]}
{"id": "C46", "title": "Expanding conditionals preserves which rules are in force", "statement": "When the conditionals of a linked policy are expanded into the output policy (formulas normalised, booleans renumbered, conditionals with equal formulas merged), then under every assignment of booleans a conditional rule is in force in the output exactly when the source conditionals put it in force.", "quantifier": "all lists of conditionals, all boolean renumberings, all assignments", "why_tests_cant": "needs all formulas up to the depth limit, all merges and all assignments; the wrong cases involve particular nestings of negation or operand orders", "anchors": ["libsepol/src/expand.c: cond_node_copy, cond_node_map_bools", "libsepol/src/conditional.c: cond_normalize_expr, cond_node_find, cond_node_search"]}
{"id": "C47", "title": "Conditional rules follow the booleans through any history of changes", "statement": "After an expanded policy's conditionals are evaluated, and then after any sequence of boolean changes (including refused ones), every rule of every conditional is enabled exactly when its formula selects it under the values last successfully set; no other rule changes and no rule changes in anything but being enabled.", "quantifier": "all policies, all sequences of boolean changes", "why_tests_cant": "an invariant over unbounded histories of updates and over the stored states of all conditionals", "anchors": ["libsepol/src/conditional.c: evaluate_cond_node, evaluate_conds", "libsepol/src/booleans.c: sepol_bool_set"]}
{"id": "C48", "title": "Reordering a conditional's rules keeps them all", "statement": "The final reordering of a conditional's rule list returns exactly the same rules with the same multiplicities, type rules (transition, member, change) first, other rules in their original order.", "quantifier": "all rule lists", "why_tests_cant": "in-place pointer surgery on lists of any length and pattern", "anchors": ["libsepol/src/conditional.c: cond_optimize, cond_optimize_lists"]}
{"id": "C49", "title": "Denial reasons are exact", "statement": "The reason returned with an access decision says 'no rule' exactly when some requested permission has no allow rule, 'constraint' exactly when some requested permission with a rule is removed by a constraint, 'role change' exactly when some requested permission that passes both is removed because the role change is not allowed, and 'bounds' exactly when the bounds of the source type remove some permission; a request that is not fully allowed always carries a reason.", "quantifier": "all policies, context pairs, classes and requests", "why_tests_cant": "depends on the interplay of all rules, constraints and bounds for each permission bit", "anchors": ["libsepol/src/services.c: context_struct_compute_av, type_attribute_bounds_av"]}
{"id": "C50", "title": "Relabelling checks equal the validatetrans rules", "statement": "A change of an object's context is accepted exactly when every validatetrans rule of the object's class holds of the old context, the new context and the context of the process; it is refused as soon as one does not hold, and unknown classes are an error.", "quantifier": "all policies, context triples and classes", "why_tests_cant": "unbounded formulas over three contexts", "anchors": ["libsepol/src/services.c: sepol_validate_transition_reason_buffer, constraint_expr_eval_reason"]}
{"id": "C51", "title": "AVC audit messages are exact", "statement": "The message of avc_has_perm says 'denied' exactly when a requested permission is not allowed, and then lists exactly the requested permissions that are neither allowed nor dontaudited; it says 'granted' only when all are allowed, listing exactly the requested permissions marked auditallow; when the list would be empty there is no message.", "quantifier": "all requests, decisions and results; all cache histories for the decision used", "why_tests_cant": "all 32-bit vectors for four masks, over all cache histories", "anchors": ["libselinux/src/avc.c: avc_audit, avc_has_perm"]}
{"id": "C52", "title": "Cached creation SIDs come from the server", "statement": "avc_compute_create returns only a SID the server gave for the same source, target and class since the last cache reset.", "quantifier": "all histories of checks, creations, events, resets and evictions", "why_tests_cant": "eviction and reuse of nodes over arbitrary histories", "anchors": ["libselinux/src/avc.c: avc_compute_create"]}
{"id": "C53", "title": "selinux_check_access asks about the permission it was given by name", "statement": "With SELinux enabled and no class mapping installed, selinux_check_access(scon, tcon, class, perm) checks exactly the class and permission with these names in the loaded policy; a class or permission the policy lacks is allowed exactly when the policy allows unknown permissions; in enforcing mode success is backed by a kernel answer that allows the named permission (or a permissive domain, or a grant event).", "quantifier": "for all loaded policies, all histories of name lookups and policy loads, all cache histories, all names", "why_tests_cant": "The result depends on the name caches and the decision cache filled by arbitrary earlier calls and policy loads; tests see only a few of these states.", "anchors": ["libselinux/src/checkAccess.c: selinux_check_access", "libselinux/src/stringrep.c: string_to_security_class, string_to_av_perm, discover_class", "libselinux/src/avc.c: avc_has_perm"]}
{"id": "C54", "title": "A policy load carries every SID over by name", "statement": "After a successful policy load every SID that was in use maps to exactly the context whose user, role, type, sensitivity and category names are those of its old context, provided all names still exist and (in enforcing mode) the result is authorised by the new policy; otherwise it maps to the unlabeled context. A load succeeds only if every class and permission of the old policy keeps its number. A number that was in use is not given to another context later.", "quantifier": "all pairs of policies, all SID tables, both modes, all allocation failures", "why_tests_cant": "quantifies over pairs of policies with arbitrary renumberings and over sequences of loads", "anchors": ["libsepol/src/services.c: sepol_load_policy, convert_context, validate_class, validate_perm", "libsepol/src/sidtab.c: sepol_sidtab_map, sepol_sidtab_map_remove_on_error", "libsepol/src/mls.c: mls_convert_context"]}
{"id": "C55", "title": "Files and file systems get the most specific label of the policy", "statement": "A genfs section is accepted exactly if it contains no file system type twice and no two entries with the same path for a common class. Then sepol_genfs_sid gives a file the context of the entry with the longest path prefix among those that fit its path and class, independent of the order in the policy and of earlier requests, and otherwise the unlabeled SID with \"no entry\"; sepol_fs_use gives the behaviour and context of the fs_use rule, otherwise that of the genfs entry for the root directory, otherwise \"none\".", "quantifier": "all policies, all request histories (SIDs are cached in the policy), all allocation failures", "why_tests_cant": "The insertion order of entries, the cached SIDs and the early exit of the search interact; tests see a few orders only.", "anchors": ["libsepol/src/services.c: sepol_genfs_sid, sepol_fs_use", "libsepol/src/policydb.c: genfs_read"]}
{"id": "C56", "title": "Ports, addresses, interfaces and devices get the first matching label", "statement": "sepol_port_sid, sepol_ibpkey_sid, sepol_ibendport_sid, sepol_node_sid, sepol_netif_sid and sepol_fs_sid give the SID(s) of the context(s) of the first entry of the policy that matches, or the documented initial SID if there is none, whatever was asked before; they fail only if a new SID cannot be made.", "quantifier": "all policies, all request histories, all allocation failures", "why_tests_cant": "SIDs are cached in policy entries on demand, also partially when a request fails; tests cannot cover all histories.", "anchors": ["libsepol/src/services.c: sepol_port_sid, sepol_ibpkey_sid, sepol_ibendport_sid, sepol_node_sid, sepol_netif_sid, sepol_fs_sid"]}
{"id": "C57", "title": "Expanding a policy keeps the meaning of its rules", "statement": "After a successful expansion the rule tables give a permission (allow, auditallow, extended permissions) to two types in a scope (unconditional, or a branch of a conditional) exactly if a rule of the source in that scope names it for them, and suppress an audit message exactly if a dontaudit rule (when these are not disabled) or auditdeny rule does; every type transition, member or change entry is that of a source rule and every such rule is in the tables; entries of a branch are enabled exactly if the conditional selects the branch; neverallow rules are copied with the types they name. Expansion fails only for two type rules that really conflict.", "quantifier": "all policies with well-formed sets, all rules incl. self, complements, attributes, all conditionals and states", "why_tests_cant": "Rules with attributes, self, complements and several classes are merged into shared nodes; tests cover a few combinations, not all.", "anchors": ["libsepol/src/expand.c: expand_avrule_helper, expand_rule_helper, expand_terule_helper, convert_and_expand_rule, copy_neverallow, find_avtab_node, cond_avrule_list_copy"]}
{"id": "C58", "title": "Partial match tells whether something below may be labelled", "statement": "selabel_partial_match on a path answers yes exactly if some specification with a label can match a path that begins with the given one.", "quantifier": "all specification sets, all paths, any regular-expression engine", "why_tests_cant": "which specifications are looked at depends on how the tree was cut into components; only some layouts miss one", "anchors": ["libselinux/src/label_file.c: partial_match, lookup_all, lookup_check_node, search_literal_spec"]}
{"id": "C59", "title": "Name-based type transitions: one answer per situation, kept by both file formats", "statement": "After inserting name-based type transition rules that do not conflict, the policy has exactly these rules, each insertion having told whether the rule was there; expansion of source rules with type sets and self succeeds exactly if no two of the rules they stand for conflict and then yields exactly those rules; policies written in either binary format and read back have the same rules; whatever bytes are accepted, every situation (source type, parent type, class, name) has at most one new type and the rule counter is right.", "quantifier": "all rule lists (any number, order, duplicates), all policy versions, all byte strings", "why_tests_cant": "rules with one key share a list of type sets whose order depends on the order of insertion; a conflict is missed only for particular orders, and bytes that encode a conflict are not produced by the tools", "anchors": ["libsepol/src/policydb.c: policydb_filetrans_insert, filename_trans_read, filename_trans_check_datum", "libsepol/src/write.c: filename_trans_write", "libsepol/src/expand.c: expand_filename_trans"]}
{"id": "C60", "title": "A login name is mapped to the SELinux user its file assigns", "statement": "getseuserbyname returns the SELinux user and level of the first line of the seusers file that names the login; only when no line names it, those of the first line for a group the login belongs to; only when there is none, those of the first __default__ line; otherwise the login name itself without a level, or failure when entries are required. Lines are read by their documented grammar (login:seuser[:level]); comments and malformed lines never change the answer. A per-user logins file overrides this for a service by its first line for the service, else by its last line for all services. The file libsemanage writes for a set of mappings whose fields can be written in it (no colon or newline in names, no leading blank or '#', no blank in SELinux users and levels) gives each login exactly its mapping.", "quantifier": "for every file content, login name, group database, MLS setting and service", "why_tests_cant": "The file is arbitrary text: the precedence must hold for every order and mixture of exact, group, default, comment and malformed lines, and for every login and group membership.", "anchors": ["libselinux/src/seusers.c:19-93", "libselinux/src/seusers.c:132-285", "libselinux/src/seusers.c:287-350", "libsemanage/src/seusers_file.c:22-43"]}
{"id": "C61", "title": "The contexts offered at login are the valid configured ones in configured order", "statement": "get_ordered_context_list returns, without repetition and in this order, the contexts listed for the role and type of the caller's context (user:role:type with an optional level) in the per-user file and then in the global default_contexts file, completed with the user's name and the caller's level, keeping exactly those that the kernel accepts. When there is none it returns the failsafe context (the user's name and the first line of the failsafe file, when that does not start with a NUL byte), provided the kernel does not refuse it. get_default_context returns the first of the list and get_default_context_with_role the first with the role. A context the kernel refuses is never returned.", "quantifier": "for every content of the three files, user, calling context and every kernel answer", "why_tests_cant": "The result depends on two arbitrary text files and on the kernel's answer for every candidate; tests can only try a few combinations.", "anchors": ["libselinux/src/get_context_list.c:16-117", "libselinux/src/get_context_list.c:132-340", "libselinux/src/get_context_list.c:402-496"]}
{"id": "C62", "title": "File contexts are sorted by specificity without losing or changing entries", "statement": "semanage_fc_sort returns, for a file-contexts text whose lines end in newlines, exactly the entries of its complete lines (path expression, optional file type, context), each as often as it occurs and with its fields unchanged, ordered from least to most specific: regular expressions before plain paths, then by length of the part before the first unescaped metacharacter, then by length without escapes, then entries without a file type before those with one; equally specific entries keep their order. Comments, blank and incomplete lines are the only ones left out. Sorting the result again does not change it.", "quantifier": "for every text of any number of lines", "why_tests_cant": "Order decides which context labels a file (the last match wins), so stability and completeness must hold for every sequence of entries and every escape and metacharacter placement, not for sampled files.", "anchors": ["libsemanage/src/semanage_store.c:2303-2431", "libsemanage/src/semanage_store.c:2439-2514", "libsemanage/src/semanage_store.c:2523-2834"]}
{"id": "C63", "title": "Label digests are SHA-1 of the data", "statement": "The digest that selabel_digest, selabel_hash_all_partial_matches and restorecon rely on is the SHA-1 (FIPS 180-4) digest of the data in order, however the data is split into updates; for a label database it is the SHA-1 digest of the concatenated specfiles.", "quantifier": "for all data, all ways to split it, any earlier content of the hash context", "why_tests_cant": "Test vectors cover a few lengths; buffering errors depend on the position of every split relative to the 64-byte blocks and counter wrap-around needs gigabytes of data.", "anchors": ["libselinux/src/sha1.c:46-223", "libselinux/src/label_support.c:123-150"]}
{"id": "C64", "title": "Module checksums are SHA-256 of the data", "statement": "The checksum that semanage_module_compute_checksum returns is \"sha256:\" and the hexadecimal SHA-256 (FIPS 180-4) digest of the module data; feeding data to the hash in pieces gives the digest of the concatenation.", "quantifier": "for all data of less than 2^61 bytes and all ways to split it", "why_tests_cant": "Correctness for every length and split, and of all 64 round constants against their mathematical definition, cannot be sampled.", "anchors": ["libsemanage/src/sha256.c:22-294", "libsemanage/src/modules.c:981-1033"]}
{"id": "C65", "title": "A rebuild is skipped only if nothing changed", "statement": "When a commit is asked to rebuild the policy only if modules changed (semanage_set_check_ext_changes), and it skips the rebuild because the checksum matches the recorded one, then the compile options (dontaudit, tunables, target platform, policy version) and the sequence of CIL contents of the active modules are those the recorded checksum was computed from, unless two different texts with the same SHA-256 digest have been found.", "quantifier": "for all options and all sequences of module contents", "why_tests_cant": "Injectivity of the hashed encoding is a statement about all pairs of configurations; a collision in the framing would need an adversarial pair.", "anchors": ["libsemanage/src/direct_api.c:863-1072", "libsemanage/src/direct_api.c:1074-1120", "libsemanage/src/direct_api.c:1291-1330"]}
{"id": "C66", "title": "A symbol counts as present only if a declaring block is enabled", "statement": "When modules are linked and expanded, a symbol (type, attribute, role, user, boolean, level, category) is treated as present exactly if one of the blocks that declare it, in the base or in any linked module, is enabled; blocks that only require the symbol do not make it present.", "quantifier": "for all sequences of declarations and requirements in the blocks of a base and any number of modules, and all sets of enabled blocks", "why_tests_cant": "Which block the scope table names depends on the order of declarations and requirements over all blocks and modules; the number of orders grows without bound.", "anchors": ["libsepol/src/policydb.c:1658-1786", "libsepol/src/link.c:1771-1857", "libsepol/src/avrule_block.c:155-191"]}
{"id": "C67", "title": "Linking enables the largest consistent set of optional blocks", "statement": "Linking succeeds exactly if every mandatory block belongs to the largest set of blocks in which every requirement of a block is declared by a block of the set; it then enables the main branch of exactly the blocks in that set, whatever the order of blocks and also for circular requirements, and enables the else branch of exactly the other blocks that have one. It always terminates.", "quantifier": "for all lists of blocks, requirements and declarations", "why_tests_cant": "The fixpoint over arbitrary (circular) dependency graphs and block orders cannot be enumerated.", "anchors": ["libsepol/src/link.c:1919-2013", "libsepol/src/link.c:2117-2214", "libsepol/src/avrule_block.c:155-191"]}
{"id": "C68", "title": "Role attributes expand to the roles they contain", "statement": "After linking, every role attribute contains exactly the roles that are its members directly or through other role attributes, and no role attributes; roles that are not attributes keep their sets. This holds whatever the order in which attributes are expanded, and expansion terminates.", "quantifier": "for all role tables, containment graphs and orders of the hash table walk", "why_tests_cant": "Order of the walk is a hash order and containment graphs are arbitrary.", "anchors": ["libsepol/src/link.c:2351-2403", "libsepol/src/link.c:2546-2563"]}
{"id": "C69", "title": "Local customisations survive being written and read back", "statement": "The records of a local database (login mappings, SELinux users and their prefixes, booleans, ports, network interfaces, file contexts) that libsemanage writes to its text file are read back from that file as the same records in the same order; and whatever it accepts from a file, it can write and read again unchanged.", "quantifier": "for all lists of records with printable fields, and for all file contents", "why_tests_cant": "Unbounded lists of records and arbitrary field texts; delimiters, comments, continuation over lines and look-ahead into the next record interact.", "anchors": ["libsemanage/src/parse_utils.c:82-305", "libsemanage/src/seusers_file.c:18-110", "libsemanage/src/ports_file.c:20-150", "libsemanage/src/users_base_file.c:22-192", "libsemanage/src/database_file.c:40-165"]}
{"id": "C70", "title": "CIL deny rules remove exactly the accesses they name", "statement": "After a CIL policy with deny rules has been processed, an allow rule somewhere in the policy (at top level, in a block, in a branch of a conditional) grants an access - source type, target type, class, permission - exactly if it was granted there before and no deny rule of the policy names it. This holds for rules written with types, attributes, self, notself and other on either side and with classes, class maps and class permission sets; all other rules, and whatever is in abstract blocks and macros, stay as they were, and no deny rule is left.", "quantifier": "for all policies (numbers of types, attributes, nested blocks), all allow and deny rules, all accesses", "why_tests_cant": "The rewriting has some twenty cases depending on how source and target are written and how the sets overlap; the test policies have one example each, and an error leaves an access silently allowed.", "anchors": ["libsepol/cil/src/cil_deny.c:129-1420", "libsepol/cil/src/cil_find.c:46-560", "libsepol/cil/src/cil_binary.c:1494-1600"]}
{"id": "C71", "title": "CIL order statements give the one order they determine", "statement": "When a CIL policy gives the order of its classes, initial SIDs, categories or sensitivities in several statements, the order in the compiled policy has every listed symbol once and every statement in its own sequence, and no other order does; statements that contradict each other or leave the order open are refused; the result does not depend on the sequence of the statements; classes of unordered statements follow behind, as first listed; every declared symbol is in the order. If the statements are runs of an order that together name all pairs of neighbours, that order is found.", "quantifier": "for all numbers of statements, all lists of symbols, all sequences of the statements", "why_tests_cant": "The order decides which security level dominates which, and class and SID numbers. The merging works by repeated attempts over partially merged lists; tests have a few lists each, and an order that differs silently would still compile.", "anchors": ["libsepol/cil/src/cil_resolve_ast.c:1188-1408", "libsepol/cil/src/cil_verify.c:524-647"]}
{"id": "C72", "title": "CIL labelling rules: none lost, conflicts refused, most specific decides", "statement": "When a CIL policy compiles, every object named by a labelling rule (port, pkey, endport, node, interface, genfs path, file system, file, interrupt, memory, I/O port, PCI device, device tree path) has exactly one rule in the result, one of those written; rules for one object that give different contexts are refused, and identical repeats are accepted exactly when multiple declarations are allowed. For every port, address, memory or I/O port number the first rule of the result that covers it is the narrowest one written (longest prefix for addresses); file rules are ordered so that fixed paths come after expressions and longer fixed beginnings later. The result does not depend on the sequence of the rules.", "quantifier": "all lists of labelling rules, all orders qsort may leave equal elements in, all objects asked about", "why_tests_cant": "the outcome depends on sorting of arbitrary many rules with equal keys, on numbers of 32 and 64 bits and on every pair of contexts", "anchors": ["libsepol/cil/src/cil_post.c:66-570", "libsepol/cil/src/cil_post.c:2277-2331", "libsepol/cil/src/cil_binary.c:3585-3627"]}
{"id": "C73", "title": "CIL set expressions give exactly the set they describe, independently of the order of the statements", "statement": "For type, role and user attributes and for category sets, a CIL policy is accepted exactly when every attribute statement names a declared attribute, every expression is well formed for its kind, every name in it is declared, every range goes upwards between two plain symbols, '(all)' is only used where there is at least one symbol, and no attribute or set is defined, directly or through others, in terms of itself. There is then exactly one way to assign a set to every name that agrees with all statements (and, or, xor, not, all, range, plain lists, aliases, several statements for one attribute), and that is what the compiler puts into the policy. The result does not depend on the order of the statements or declarations. The same holds for the permission lists of a class and for extended permission (ioctl) sets over 0..0xFFFF. The evaluation ends and never reads an unset bitmap.", "quantifier": "all symbol tables, all sets of statements with expressions of any depth, all orders of statements and declarations", "why_tests_cant": "Expressions nest without bound and refer to each other in any order; lazy evaluation stores half-built sets in the symbols, so a mistake only shows for particular dependency shapes and orders.", "anchors": ["libsepol/cil/src/cil_build_ast.c:2640-2738", "libsepol/cil/src/cil_verify.c:147-251", "libsepol/cil/src/cil_verify.c:423-495", "libsepol/cil/src/cil_resolve_ast.c:3186-3235", "libsepol/cil/src/cil_post.c:881-1449", "libsepol/cil/src/cil_post.c:2059-2094"]}
{"id": "C74", "title": "tunableif and booleanif select the block their condition says", "statement": "A CIL tunableif is accepted exactly if its condition is well formed over declared tunables and it has one true block, one false block, or one of each; it then leaves exactly the statements of the block selected by the truth of the condition under the declared tunable values. A CIL booleanif is accepted exactly if its condition is well formed over declared booleans, needs no more than ten intermediate results and its blocks are right; in the compiled policy, for every value of the booleans, the conditional rules in force are exactly those in the blocks selected by the conditions as written.", "quantifier": "all conditions (any nesting of and, or, xor, eq, neq, not and lists), all blocks, all lists of conditionals, all boolean values", "why_tests_cant": "conditions nest without bound, and the compiler merges conditionals it takes to be equal, so the effect of one statement depends on all the others and on every assignment of the booleans", "anchors": ["libsepol/cil/src/cil_resolve_ast.c:3242-3363", "libsepol/cil/src/cil_binary.c:2254-2630", "libsepol/cil/src/cil_build_ast.c:2924-3039", "libsepol/cil/src/cil_verify.c:366-398", "libsepol/src/conditional.c:142-204"]}
{"id": "C75", "title": "CIL text is read as its grammar says, in one way only", "statement": "A CIL text is accepted exactly if it is a sequence of lists in balanced parentheses, nested at most 4096 deep, whose members are symbols (longest runs of printable characters other than quotes, parentheses, semicolons and backslashes), quoted strings on one line, and lists, separated by blanks, line ends and comments up to the end of the line; the tree handed on has exactly those members in that order. Line marks enclose the statements between them. No text makes the reader leave the tree of its file.", "quantifier": "all texts", "why_tests_cant": "Nesting and length are unbounded, and whether a byte belongs to a symbol, a string or a comment depends on everything before it on the line.", "anchors": ["libsepol/cil/src/cil_lexer.l:44-96", "libsepol/cil/src/cil_parser.c:45-318"]}
{"id": "C76", "title": "Conditionals survive being written as CIL and compiled again", "statement": "When a kernel policy is written as CIL (sepol_kernel_policydb_to_cil), every conditional is written as one booleanif statement which, compiled again, gives a conditional with the same expression over the same booleans by name, and with the same rules in its true and false branches; so it has the same truth value for all values of the booleans.", "quantifier": "all expressions, all boolean names, all numberings of the booleans, all branches", "why_tests_cant": "Expressions nest without bound and the text passes through a lexer, a parser and two more translations; a mistake in one operator order or in one name only shows for particular shapes.", "anchors": ["libsepol/src/kernel_to_cil.c:32-118", "libsepol/src/kernel_to_cil.c:2142-2230", "libsepol/cil/src/cil_build_ast.c:2924-2979", "libsepol/cil/src/cil_verify.c:366-398"]}
{"id": "C77", "title": "CIL constraints and transition rules are enforced as written", "statement": "The statements constrain, mlsconstrain, validatetrans and mlsvalidatetrans of a CIL policy are enforced as written: an access is granted only if every constraint naming the class and permission holds as a formula over the two contexts, a relabel is accepted only if every transition rule of the class holds over the old, new and process contexts, and mls statements take effect only in an MLS policy. A statement that cannot be given such a meaning (a relation between different kinds of attributes, an expression too deep for the evaluator) is refused.", "quantifier": "all statements and nestings, all name tables, all policies, all contexts, classes and permissions", "why_tests_cant": "Expressions combine freely and nest; a wrong attribute code or a missing check only shows for one pair of operands, one relation and particular contexts.", "anchors": ["libsepol/cil/src/cil_build_ast.c:2740-2922", "libsepol/cil/src/cil_verify.c:253-364", "libsepol/cil/src/cil_resolve_ast.c:3152-3239", "libsepol/cil/src/cil_binary.c:2756-3240", "libsepol/src/services.c:358-624"]}
{"id": "C78", "title": "Constraints survive being written as CIL and compiled again", "statement": "The constrain, mlsconstrain, validatetrans and mlsvalidatetrans rules of a kernel policy, written by sepol_kernel_policydb_to_cil and compiled by cil_compile, let exactly the same permissions and the same transitions pass as before, although users, roles, types, classes and permissions may be numbered otherwise in the new policy. This holds when every set of names can be written: it is not empty, the names kept with it stand for its values, and a set of one name is not called like an operand (u1, t2, l1, ...).", "quantifier": "all policies, all expressions of at most five cells, all contexts, all renumberings, any other statements in between", "why_tests_cant": "The rules of a class are sorted, split into two parts of the file, renumbered and read again; a test compares the text of a few policies, not the decisions of all policies on all contexts.", "anchors": ["libsepol/src/kernel_to_cil.c:122-422", "libsepol/src/kernel_to_common.c:205-358", "libsepol/src/util.c:85-133", "libsepol/src/expand.c:338-366", "libsepol/cil/src/cil_build_ast.c:3905-4000", "libsepol/cil/src/cil_binary.c:2640-2960"]}
{"id": "C79", "title": "File context specifications are read as written", "statement": "selabel_open for files accepts a text file of specifications exactly if every line is blank, a comment, or two or three words (expression, optional file kind, context) made of ASCII characters with a known kind; it then keeps for each line exactly the expression, kind and context written there, in order, further words being ignored. A SELABEL_OPT_SUBSET that is not a slash and one component is refused. Output of the file-context sorter is read back as the sorted entries.", "quantifier": "for all texts and options", "why_tests_cant": "the set of texts is infinite; the reader counts words, blanks and terminators in place and a misplaced blank can shift a field for one shape of line only", "anchors": ["libselinux/src/label_support.c:25-120", "libselinux/src/label_file.h:181-203", "libselinux/src/label_file.h:797-870", "libselinux/src/label_file.c:194-211"]}
{"id": "C80", "title": "Substitution files are read as written", "statement": "Reading a file of path substitutions gives exactly the pairs made of the first two words of each line that is not a comment, in order; lines with fewer words give nothing, and pairs written one per line are read back.", "quantifier": "for all texts", "why_tests_cant": "the reader works in a reused buffer of 1023 bytes, so what a line gives can depend on earlier lines and on uninitialised memory, which shows only for particular lengths", "anchors": ["libselinux/src/label_file.c:1264-1371"]}
{"id": "C81", "title": "Media, X and database objects get the label of the first matching line", "statement": "selabel_lookup for media, X and database objects returns the context of the first line of the file whose kind and pattern match, '*' in a media file matching everything, and fails exactly if there is no such line; lines that are comments or have too few words, or unknown kinds, count for nothing.", "quantifier": "for all files (media and X files of at most UINT_MAX / sizeof(entry) lines, where the code stops), keys and kinds and any behaviour of fnmatch", "why_tests_cant": "all orders and mixtures of lines must be considered, and the array is sized in a first pass over the file and filled in a second", "anchors": ["libselinux/src/label_media.c:28-200", "libselinux/src/label_x.c:25-235", "libselinux/src/label_db.c:70-340"]}
{"id": "C82", "title": "A relabelling run gives each inode one context, that of its first path", "statement": "With SELINUX_RESTORECON_ADD_ASSOC, selinux_restorecon labels a file reachable under several paths by the first path met, leaves it alone for the others, and reports every path whose specified context differs from the one used (as an error if asked for). Every file met that has a specification ends up with a context.", "quantifier": "for all sequences of files, inode numbers, contexts, and contents of the file system at each step", "why_tests_cant": "the associations are in a hash table of ordered chains whose order matters; wrong answers need particular inode numbers, devices and moments", "anchors": ["libselinux/src/selinux_restorecon.c:401-521", "libselinux/src/selinux_restorecon.c:652-804", "libselinux/src/selinux_restorecon.c:927-1047"]}
{"id": "C83", "title": "Restoring a label changes exactly what was asked for", "statement": "selinux_restorecon sets a file to the specified context if the whole context is asked for; otherwise it leaves files of customizable types alone and replaces the type only (user and role too if asked for), keeping the range; it touches a file only if that gives another context, and doing it again changes nothing. The customizable types are the lines of their file.", "quantifier": "for all contexts, flags and lists of types", "why_tests_cant": "combinations of flags, differing components and missing components are many, and idempotence is a statement about all of them", "anchors": ["libselinux/src/selinux_restorecon.c:592-648", "libselinux/src/selinux_restorecon.c:725-804", "libselinux/src/is_customizable_type.c:15-105"]}
{"id": "C84", "title": "Module packages are read back as written, and nothing else is accepted", "statement": "sepol_module_package_read succeeds exactly on files with the package number, at most a hundred sections that lie inside the file one after another with room for their kind, each known kind at most once and exactly one policy; the texts it gives are exactly the bytes of their sections. What sepol_module_package_write wrote is read back as the same package. sepol_module_package_info tells the kind, name and version of a written package. Linking appends the file and netfilter contexts of the modules to those of the base in order.", "quantifier": "for all byte strings of less than 4 GiB, all packages, all policy writers and readers that fit together, all lists of modules", "why_tests_cant": "corrupt files are unlimited in number, and acceptance has to be judged on every combination of offsets, lengths and kinds", "anchors": ["libsepol/src/module.c:245-346", "libsepol/src/module.c:350-650", "libsepol/src/module.c:652-985"]}
{"id": "C85", "title": "The policy is built from the enabled modules of highest priority, as last installed", "statement": "After any sequence of installing, removing, enabling, disabling, extracting and rebuilding in a module store: semanage_module_list and a rebuild see each installed and enabled module name exactly once, at its highest priority, in the order of the names; a rebuild uses the text last installed there (compiled if it is not CIL), never a stale compiled copy; a name is disabled exactly if the status given last was 0 and some module of the name is still installed; the operations succeed exactly on documented names (^[a-zA-Z](\\.?[a-zA-Z0-9_-])*$), extensions, priorities 1 to 999 and statuses, and on modules that are there; failed operations change none of this. Extraction as CIL gives the compiled text; extraction as source gives what was installed, for extensions other than cil with capitals.", "quantifier": "for all sequences of operations on an empty store, all names, priorities, extensions, data, compilers, and all sorting functions that put directory names in strverscmp order", "why_tests_cant": "The status of a name, the caches and the listing order come from separate files that every operation of a history touches; a test runs a few histories, and an order that is right for two priorities can be wrong for others (strverscmp treats leading zeros specially).", "anchors": ["libsemanage/src/direct_api.c:883-1073", "libsemanage/src/direct_api.c:1802-1900", "libsemanage/src/direct_api.c:1981-2163", "libsemanage/src/direct_api.c:2194-2992", "libsemanage/src/modules.c:744-900", "libsemanage/src/semanage_store.c:1098-1207"]}
{"id": "C86", "title": "Home directories are labelled from the template for their user", "statement": "For a user with a given home, prefix, SELinux user, level and (optionally) home directory role, the lines written for the home directory are those of the homedir template that begin with HOME_DIR, in order: HOME_DIR is replaced by the home, then ROLE by the prefix, and in the context behind the last blank the user, the level (in an MLS policy) and the role (if one is given) are replaced and the rest is kept; the line is left out exactly if the policy does not know the resulting context, and <<none>> is kept. The same holds for the lines for %{USERNAME}, %{USERID} and USER. Lines beginning with HOME_ROOT keep their context. The text replacement never writes outside of its buffer. A line with a malformed context fails the whole generation.", "quantifier": "for all templates whose lines end in a context (without trailing blanks, and not occurring earlier in the line) or <<none>>, all users, all policies", "why_tests_cant": "The buffer for a replacement is computed from counted occurrences, and which occurrence of a word is replaced depends on every text put in before; both have to be right for unlimited names and templates.", "anchors": ["libsemanage/src/genhomedircon.c:479-758", "libsemanage/src/utilities.c:217-330"]}
{"id": "C87", "title": "A thread's attributes are what it set last, in the kernel and when read back", "statement": "After any sequence of getcon, setcon, getexeccon, setexeccon, getfscreatecon and so on (raw or translated) in a thread: the last write the kernel accepted for an attribute is exactly what was last set successfully, so the cache never keeps a setting from taking effect and a refused setting is never remembered; setting succeeds exactly if the kernel accepts it or the same context was set last; reading gives the context last set, or after clearing (or if none was set) what the kernel says, so it is what the kernel holds if that keeps contexts as written. A translation is always one the translation daemon gave for that text, or the text itself if it failed.", "quantifier": "for all sequences of calls, all contexts, all kernels whose answers may change with time, all translation daemons (with constant answers for the statements on translated calls)", "why_tests_cant": "A stale cache shows only after particular sequences of refused, repeated and clearing calls on different attributes, of which there are unlimitedly many.", "anchors": ["libselinux/src/procattr.c:14-287", "libselinux/src/setrans_client.c:196-389"]}
{"id": "C88", "title": "The configuration file and the default types of roles are read as written", "statement": "selinux_getenforcemode gives the mode of the first line of the configuration file that says SELINUX= with a word for a mode (in any letters, blanks allowed between the = and the word) and fails if there is none; selinux_getpolicytype gives what the last SELINUXTYPE= line says, without blanks around it, and targeted if there is none; get_default_type gives the type of the first line for the role and fails if there is none.", "quantifier": "for all files of lines that end in a newline (shorter than a page for the mode, than 249 characters for the types) and all roles; REQUIRESEUSERS is not part of it (its words are read the wrong way round)", "why_tests_cant": "The three readers differ in how they treat blanks, letters, comments and repeated lines; only a statement on all files tells which line decides.", "anchors": ["libselinux/src/selinux_config.c:89-228", "libselinux/src/get_default_type.c:10-70"]}
{"id": "C89", "title": "Every file context line goes to the system's contexts or to the template for users, and users lose nothing by it", "statement": "When a store is committed, the lines of the file contexts that begin with HOME_DIR or HOME_ROOT or have ROLE or USER in them make up the template for home directories, all others file_contexts, each in order and unchanged. What is then generated from the template for the home directory of a user, for a directory of homes and for the name or number of a user is what would be generated from all lines.", "quantifier": "for all files of lines that end in a newline and are shorter than 4095 characters, all users and directories; it is not claimed that a line in the template is used for anything (one with only ROLE in it is not)", "why_tests_cant": "The sorting and the four selections made later use different words in different places; that none of the lines selected later is left behind has to hold for all texts.", "anchors": ["libsemanage/src/semanage_store.c:1484-1549", "libsemanage/src/genhomedircon.c"]}

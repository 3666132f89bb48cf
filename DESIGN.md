# Formal model of selected SELinux userspace code

Source: `/repo` (SELinuxProject/selinux, pinned commit). Model: Rocq/Coq 8.16.1 in
`/verif/rocq/theories`. The code was read as text only; nothing was built or run.

## Conventions

* Each area `X` has `XModel.v` (function-by-function model, every definition cites the file and
  lines it models), `XSpec.v` (independent specification), `XProofs.v` (lemmas) and `XProps.v`
  (only the property theorems, each with `Print Assumptions`, plus the concrete witnesses showing the
  hypotheses are met). Small areas may merge Spec into Props.
* Machine words are `N` with explicit wrap-around where C wraps. Lists model linked lists; pointer
  aliasing, `malloc` failure and `free` are not modelled unless the section says so.
* Undefined behaviour, non-termination and error returns are distinct outcomes of the model.
* Where a property is false of the code as written, a theorem `..._refuted` gives a concrete
  witness, and a theorem `..._partial` proves the property under the extra condition that excludes
  the defect. The full English statement stays in `properties.jsonl`.

## Trusted base

* Coq's kernel (including `vm_compute`).
* `Print Assumptions` for each property theorem: see the section "Assumptions" below.
* The faithfulness of the model to the C text (checked by reading; line references given).

## Plan per property

| Id | Model | Method |
|----|-------|--------|
| C01 | ebitmap nodes `(startbit, map)` sorted list + highbit; `set_bit`, `get_bit` | invariant `wf` + membership lemma per write, induction on the history |
| C02 | `cmp` on node lists; all constructors | canonical-form theorem: `wf` lists with equal members are equal |
| C03 | two-list merge loops of or/and/xor/andnot/contains/match_any, cardinality, hamming | pointwise membership by induction on the pair of lists |
| C04 | iterator state (node, bit) and `ebitmap_next` | the visited list equals the sorted list of members |
| C05 | byte-level `ebitmap_read` / `ebitmap_write` | round trip; read result always `wf` |
| C06 | 32-bit cursor of `ebitmap_not` with wrap | proved below 2^32-64, refuted above |
| C07, C08 | `mls_types.h` functions over ebitmaps | order laws from C02/C03 |
| C09 | printer with run compression over the bit iterator, tokenizing parser | round trip without gap condition refuted; with condition proved |
| C10 | `context_is_valid`, `mls_context_isvalid` over an abstract policy record | equivalence with a set-level specification |
| C11, C12 | array of sorted chains, any hash | sortedness invariant, refinement to a multimap |
| C13 | RPN evaluator with explicit stack array of 10 | correspondence with an expression tree evaluator |
| C14 | `cond_expr_equal` with precomputed truth tables | refuted by `a && !b` / `b && !a`; proved when boolean order agrees or beyond 5 booleans |
| C15 | `cond_normalize_expr` | semantic preservation |
| C16 | `context_struct_compute_av` over avtab model and attribute maps | equivalence with set-comprehension specification |
| C17 | constraint RPN evaluator, errors explicit | well-formed exact; malformed fail-open examined |
| C18 | `type_attribute_bounds_av` with fuel by bounds depth | induction on the bounds chain |
| C19 | all of optimize.c (type map, redundancy checks on both tables, list reordering, sweep of the conditional table) | each removal or reduction keeps the effects of all rules (covering rule present at that moment); composed by transitivity over the walks; lifted to compute_av |
| C21 | `hierarchy_check_constraints` function by function over the avtab model: expansion of the parent's rules into the global and per-branch tables, check of the child's rules on bounded targets, names with dots, roles and users; the tables proved to hold exactly the parent's permissions, then zero errors ⇔ containment for every choice of branches; refutation for conditional non-allow rules of the parent. |
| C22 | Tables modelled as arrays of chains, for every hash and comparison function that agree; proved by refinement to an association list over every history of insertions, removals, replacements and searches, with allocation failures; `symhash`/`symcmp` shown to be such a pair; traversal visits each pair once. |
| C23 | SID table as 128 ordered chains; invariant (shape, order, every SID below the next one) over every history of insertions and requests with allocation failures; two refutations with explicit histories. |
| C24 | context string printer/parser | round trip |
| C25 | `type_set_expand`, `expand_convert_type_set`, `map_ebitmap`, `role_set_expand`; loop lemmas (each step adds a set / flips one number), then membership equivalence with a set-theoretic meaning; refutations for unchecked exclusions and nested attributes. |
| C26 | `compute_sid` over rule tables, class defaults, role and range transitions and the SID table; compared with a relation written as the documented precedence, shown functional; soundness, completeness and no change on refusal. |
| C30 | AVC sidtab | invariant |
| C33 | MappingModel: discovery cache, selinux_set_mapping, unmap/map of classes, permissions and decisions, compute_av. Bits of each loop characterised by induction, contents of an installed table by induction over the table under the invariant that cached classes are classes of the loaded policy. Refuted after a policy load without re-installing. |
| C34 | the file contexts backend of label_file.c/.h without binary files: literal and regex stems, insertion into the tree, sorting, duplicate check, binary searches, the lookup loops; the engine is a parameter | the tree after any list of insertions holds at each node exactly the specifications with those stems (invariant over insertion and sorting); the lookup is then compared with a relation on the flat list; refuted for stems behind a repeated slash, for an older <<none>> deeper in the tree, for a part of two components, for literals of the local file; C34_from_text_partial starts from the text of the file through C80 |
| C35 | `lookup_all` cleaning loop, `selabel_apply_subs`, `selabel_sub_key` | cleaning equals splitting into components and joining; substitution compared with a relation |
| C36 | `lookup_best_match` | loop invariant; refuted for an alias hit without fixed prefix; the compared number is the length of the longest literal beginning |
| C37 | `context_new` etc. | refuted for trailing empty component; conditional version proved |
| C42 | `load_policy` over a server state (policy, SID table, mode) with every failure point as an input; partial theorem for readable images, two refutations. |
| C43 | CodecModel: one writer and one reader per object over byte lists; CodecSpec: `keeps` (written, then read with anything after it: same object, rest untouched) and `only` (any bytes: storable objects only) with the storable objects described without the model | readers composed from lemmas about binding; constraints by induction on trees and by a stack of trees for arbitrary bytes; tables with the insertion lemmas of C11/C12 |
| C44 | length computation and printer of contexts | both loops compared step by step |
| C45 | `mls_setup_user_range` | case analysis with the dominance order |
| C46 | `cond_node_copy` over lists of conditionals | induction on the list; refuted for double negation |
| C47 | `sepol_bool_set`, `evaluate_conds` over rule pointers | invariant over histories; refuted for stale stored states |
| C48 | `cond_optimize` pointer surgery as list moves | loop invariant (type rules, then others) |
| C49 | reason bits of `context_struct_compute_av` | stage-by-stage bit characterisation, same induction as C16 |
| C50 | `sepol_validate_transition_reason_buffer` | induction on the rule list over C17 |
| C27 | whole cache with callers' references, events, mode changes | invariant over histories (structure + content); refuted for undecided answers |
| C28 | `avc_control`, `avc_update_cache` | same invariant; refuted for undecided answers |
| C29 | 512 chains, free list, two-pass reclaim | structural invariant, permutation of the node pool |
| C51 | `avc_audit` | bit characterisation; decision linked to history by the C27 invariant |
| C52 | `avc_compute_create` | content invariant on create SIDs |
| C53 | MappingModel.check_access composed with the access vector cache theorem C27. |
| C54 | the same `load_policy`; conversion compared with a relation stated on names only; refutation of number reuse over two loads. |
| C55 | genfs list insertion, fs_use and genfs lookup with SIDs cached in the entries over the SID table of C23; induction over request histories; longest prefix by a sortedness invariant. |
| C56 | the object context lists with cached SIDs; the same induction. |
| C20 | `check_assertions` with both passes (check and report), extended permissions with conditional branches; equivalence with a quantified specification; the error count bounded by an injection into the positions of violations; refuted for `self` beside other targets and for 2^32 violations. |
| C57 | `find_avtab_node`, `expand_terule_helper`, `expand_avrule_helper`, `expand_rule_helper`, `convert_and_expand_rule`, conditional lists, `copy_neverallow` over lists of nodes with their scope; every loop gets an outcome (facts added, or a conflict) and outcomes compose; the source is flattened to groups of one scope; refutations for dropped classes, wrong driver, silent overwrite, dropped neverallow. |
| C31 | sestatus.c as a reader doing one load at a time, interleaved with a kernel following the sequence-lock protocol; ghost count of increments and history of completed updates | invariant of a running call; single values exact under every schedule; the pair taken over by selinux_status_updated exact while the sequence does not go round during the call, refuted otherwise; refuted in fallback mode (access through MAP_FAILED) |
| C32 | the same, with avc_open and the poll at the start of a permission check | invariant "in step with the page" over all schedules; refuted for a switch between avc_open and the first poll |
| C58 | `partial_match` | soundness for every engine; the converse refuted |
| C38 | the three llist databases, join_cache (qsort as any sorting function), split and flush, files behind the halves | merge of sorted lists by induction; a transaction refines the collection, flush and reload give a permutation of the users; refuted: tables with different names, duplicate names |
| C39 | doubly linked list with heap cells, freed cells and records as undefined behaviour, serial numbers, file cache and flush | representation invariant by induction over calls, refinement to lists; refuted for failing copies, failing get_serial, failing close |
| C40 | semanage_commit_sandbox and what it calls as a program over system calls, each of which may fail, with every world passed through kept as a crash point | invariant over all crash points by a Hoare style triple; refuted by the window between the renames, the recovery after it, the one by one installation, and EXDEV |
| C41 | the same program and its outcomes | case analysis of outcomes under at most one failing call, and without that limit; refuted by the roll back, the backup, two failures, and skipped files |
| C59 | FtransModel: the hash table of HashtabModel with the data list of each key, insertion, expansion of rules, both formats; FtransSpec: a table `has` rules (source, key, new type) | invariant `Inv` (hash table represents an association list; valid bitmaps; distinct new types; counter) kept by insertion; both formats reduced to it; conflicts: refuted with witnesses |
| C60 | LoginModel: getline, process_seusers, the precedence loop, check_group, getseuser, seuser_print; LoginSpec: grammar of a line as a relation, `assigns` (first line such that) | line parser equals the grammar (both directions); loop generalised over the group/default found so far; induction over lines |
| C61 | LoginModel: get_context_user, failsafe, get_ordered_context_list and the functions choosing from it; context strings from ContextModel; LoginSpec: words of a line, candidates, `firsts` | line and word splitting equal the relations; loop invariant over the list built so far |
| C62 | FcsortModel: line splitting, parsing of a line, metacharacter search (reading past the end is UB), comparison, bottom-up merge sort, output; FcsortSpec: grammar of a line, items of a path (escaped or plain characters), `less_specific`, stable sorting as permutation + order + equal subsequences | line parser equals the grammar; comparison equals the specification's order; invariant of merge passes (each bucket sorted, same subsequence of every rank); idempotence from uniqueness of stable sorting |
| C63 | Sha1Initialise, Sha1Update (32-bit counters, 64-byte buffer, memcpy out of bounds is an outcome), the unrolled transform as a table of 80 rounds over five variables and a circular block, Sha1Finalise and digest_gen_hash. Specification: FIPS 180-4 (padding, schedule, rounds) as relations with arithmetic rotations. Refinement by an invariant over updates; the wrap of the size check and big-endian hosts are refuted. |
| C64 | Sha256Update/Finalise/Calculate and semanage_hash_to_checksum_string. Specification: FIPS 180-4 with the constants defined by cube and square roots of primes. Same invariant. |
| C65 | update_checksum_with_len/bool, semanage_compile_hll_modules (what is hashed for each module, depending on cache and language), semanage_compare_checksum. Proof: the hashed encoding is injective; composition with C64 gives equality or a SHA-256 collision. With the module cache ignored, CIL modules are not hashed: refuted. |
| C66 | symtab_insert (the scope part), scope_copy_callback, is_id_enabled on one scope entry for each symbol; a compile is a list of declare/require events, linking merges the tables of base and modules with renumbered blocks. Specification: the events themselves. Invariant: for symbols other than roles and users the last block in the list is the declaring one, if no block declares a symbol it required before. Otherwise, and for roles and users, refuted with witnesses. |
| C67 | is_decl_requires_met, enable_avrules with block pointers, decl flags and the uninitialised `req`. Specification: largest self-supporting set (union of all self-supporting sets). Proof: every pass keeps all blocks of every self-supporting set, each changing pass disables a block, a pass without change leaves a self-supporting set. |
| C68 | expand_role_attributes with its restart, over sets of role numbers (bitmaps), use of a freed bitmap node as an outcome, hashtab_map as a list of keys in any order. Specification: reachability in the original containment. Proof: invariant that reachability is unchanged; termination by a weight that decreases when attributes can be ranked. Refuted for cycles (use after free, endless loop). |
| C69 | the parser of parse_utils.c on the memory of a line (bytes up to the final NUL, reading beyond is undefined behaviour), the print and parse functions of seven kinds of records, and the loops of dbase_file_cache and dbase_file_flush. Round trip by induction over the list of records with the invariant that the parser stands at the start of the remaining lines; for arbitrary files: what the parser accepts satisfies the conditions of the round trip. |
| C70 | DenyModel: type datums (types, attributes as bit sets, self/notself/other), class permissions (classes, maps, sets), the searches of cil_find.c, every set operation and case of cil_deny.c, attribute creation with the search for an equal one, the walk of the tree. Proof: every created attribute denotes the set operation; every case of the rewriting is exact by case analysis on memberships; induction over the deny rules and the tree. |
| C71 | Merging of order statements in cil_resolve_ast.c (insertion, search for the next match, rounds) and the check in cil_verify.c are modelled with the flags of the records. Specification: an order agrees with the statements if each is a subsequence. Invariant: the list has no duplicates and has exactly the flagged symbols, merged statements stay subsequences; the check gives a chain of neighbours, from which uniqueness follows; for runs, case analysis of overlaps shows progress in every round. |
| C72 | Rules of the 13 kinds as a type, one comparison function per kind as in the code, the loop over the sorted array. qsort is any sorted permutation. Comparison mapped to the lexicographic order of a key; invariant of the loop; first match by strict order. |
| C73 | CIL set expressions from parse tree to bitmap: `cil_gen_expr` and the syntax check, name resolution on a flat table, the self-reference check, lazy evaluation of attributes and category sets with its cache inside the symbols. Specification: the meaning `holds` of a parse tree, and `solution`, an assignment of sets agreeing with all statements. Proof: the check passing gives a well-founded order of the attributes, so the solution exists and is unique; invariant over the evaluation: what is cached for a symbol not being evaluated is the solution. |
| C74 | CilcondModel: the condition of tunableif and booleanif from parse tree to decision or to the expression of the policy, the blocks, and the merging of conditionals into the policy's list. Proved: acceptance exactly; the tunable branch; the meaning of the expression by induction on the tree; the rules in force by induction on the statements under the order condition of C14, refuted without it. |
| C75 | The lexer rules as a function on bytes, the parser loop with its stack of open nodes; the grammar as an inductive relation between texts and trees. Proved: acceptance iff derivation, by induction over derivations and over texts; safety by an invariant on the depth of the stack. |
| C76 | The writer of conditional expressions (string stack) and of the statement around it, composed with the lexer, parser (C75), expression builder and translation (C74). Proved: induction over the formula for the text, the tree and the tokens read back. |
| C77 | The expression builder, the operand check, the resolver, the depth check and the translation of constraint and validatetrans statements into the constraint lists of the policy, composed with the evaluator and access decision of C16. Proved: induction over formulas for acceptance and for the postfix code; induction over statements for the lists of each class; `C77_decision` joins it with C16. |
| C78 | `KconsModel.v` models the writer of constraints (kernel_to_cil.c 122-422 with the string lists of kernel_to_common.c) and the reading of the four statements; the expressions and their meaning are those of C77, the text grammar that of C75. Proved: by induction on the reverse Polish expression, the text written is read as one formula with the same meaning under any one-to-one renumbering; then for lists of lines, independent of their order, with the parser theorem C75_exact and C77_constraints/C77_transitions. Refuted (C78_refuted_*) where the names kept with a set do not stand for its values. |
| C79 | `LabtextModel.v` models the reader of file-context lines (read_spec_entry, read_spec_entries with its argument list, process_line, process_text_file). What a line says is a relation on words (`LabtextSpec.v`). Proved: by induction on the words of a line, the file is accepted iff every line says something, and the result is what they say; the option SUBSET; reading back what fc_sort (C62) wrote; no store through a missing argument. Refuted: an argument too many is taken with va_arg for a line of two words and a trailing blank. |
| C80 | selabel_subs_init with its buffer as a list of bytes that may be unwritten, fgets in pieces of 1022 bytes. Proved: by induction on the lines, the pairs of the lines if every line fits and the file does not end within a first word; round trip of written pairs. Refuted: stale bytes, uninitialised bytes, long comments. |
| C81 | The line readers, the two passes and the lookups of the media, X and database backends; fnmatch is an arbitrary function. Proved: the lookup gives a context iff it is that of the first line that says the kind and a matching pattern, and fails iff there is none; the second pass never stores behind the array. |
| C82 | `RestoreModel.v` models filespec_add (chains of a hash table by inode number), restorecon_sb and a walk of one thread; lstat is an arbitrary function, another at every call. What is remembered after a history is a relation (`RestoreSpec.v`). Proved: sortedness of the chains is invariant, each answer is the one the history demands; by induction over the walk, every inode ends up with the context of its first path and exactly the differing paths are reported. Refuted for several devices and for numbers used again. |
| C83 | compare_portions (on the context_t model of C37), is_context_customizable, customizable_init (pieces of fgets) and the decision in restorecon_sb. Proved: equality with a specification on the four fields, determinism, idempotence. Refuted for contexts without type and for files of types without last newline or with NUL. |
| C84 | module.c over memory files: offsets, sections, texts in pieces of BUFSIZ, the writer with its uint32_t offsets, the short look, linking of texts; policydb_write, policydb_read and link_modules are parameters. Proved: reading is equivalent to a declarative reading of the bytes, no partly unset text, round trip, refusals of the writer, kind, name and version, linking. Refuted: the short look at packages whose last text is shorter than four bytes. |
| C85 | the module store of direct_api.c with modules.c and semanage_store.c: validators, directory listing with versionsort (the automaton of strverscmp), info, enabling, installing, removing, active list, compiling with caches and remove-hll, extraction; stores are tables of directories, compilers and sorting functions parameters. Proved: refinement of all operation sequences to the history of successful operations. Refuted: extraction of sources with the extension CIL in capitals. |
| C86 | Replacement of words by count and fill loops with explicit buffer bounds and size_t wrap, refined to a relation 'first occurrences replaced from the left'; the template read, filtered and written line by line. Proved by induction over texts, lines and files; three exceptions are refuted with witnesses. |
| C87 | The thread's remembered values, the kernel's attribute files and a log of writes; kernel and daemon answer as functions of time. An invariant over runs ties the cache to the last success in the history and in the log. |
| C88 | The three readers as functions of the bytes of the file, with fgets and getline; a line's meaning specified as a decomposition of its text. Proved by induction over the lines; REQUIRESEUSERS and a last line without newline refuted. |
| C89 | semanage_split_fc as a function of the bytes of the file by fgets pieces of 4095, giving the bytes of both results; composed with the four writers of C86. Proved by induction over the lines, and by the selection of each writer implying a word of the template. |

## Assumptions

`Print Assumptions` beneath every property theorem prints "Closed under the global context": no axiom is
used, neither of Coq's standard library nor of another library.

## What is modelled and what is not

| Files | Modelled | Not modelled |
|-------|----------|--------------|
| EbitmapModel | libsepol ebitmap.c (all operations except `ebitmap_init_range`'s callers), ebitmap_write of write.c | memory allocation failure |
| MlsModel, ContextModel | mls.c level/range checks, printing and parsing, mls_types.h, mls_setup_user_range, context.c, context_is_valid; libselinux context.c | symbol tables behind names are association functions; alias handling |
| AvtabModel | avtab.c insert, search, nodes, alloc, map | binary reading (later section), hash function (any function) |
| CondModel | conditional.c evaluation, normalisation, equality, search, optimize; validate_cond_expr; cond_node_copy; sepol_bool_set; cond_compute_av | reading and writing; evaluation of tunables |
| ServicesModel | services.c constraint_expr_eval_reason (values, not the text buffers), context_struct_compute_av, type_attribute_bounds_av, sepol_validate_transition_reason_buffer; depth test of read_cons_helper; validate_constraint_nodes | SID lookup (other section), names resolved by id; `seqno`, `decided`, reason text |
| AvcModel.v | libselinux/src/avc.c hashing, reclaim, claim, lookup, insert, `avc_has_perm_noaudit`, `avc_audit` (masks), `avc_compute_create`, `avc_control`, reset; avc_internal.c `avc_process_setenforce`, `avc_process_policyload` | locks, threads, statistics, message text, user callbacks other than their retained mask; status polling is a separate operation of the history |
| UsidModel.v | libselinux/src/avc_sidtab.c | pointers as unique ids; destruction |
| libselinux/src/mapping.c, stringrep.c (string_to_security_class, string_to_av_perm, discover_class, flush), compute_av.c (security_compute_av_flags_raw), checkAccess.c (selinux_check_access) | MappingModel.v | selinuxfs is a list of classes; printing and parsing of the request and answer text, log messages and errno are not modelled; one flag tells whether reads and allocations succeed during a call |
| libsepol/src/hashtab.c, symtab.c (symhash, symcmp) | HashtabModel.v | hashtab_destroy and hash_eval not modelled; tables of size 0 excluded |
| libsepol/src/sidtab.c | SidtabModel.v | node lists as lists; allocation success is an input |
| libsepol/src/services.c: sepol_load_policy, convert_context, clone_sid, validate_class, validate_perm | SidtabModel.v | policydb_read is an input (policy or failure); log messages and freeing of the old policy not modelled |
| libsepol/src/services.c: sepol_compute_sid, sepol_transition_sid, sepol_member_sid, sepol_change_sid; libsepol/src/mls.c: mls_compute_sid | ComputeModel.v | range transitions as an association list (C22); allocation failure only in the SID table; log text not modelled |
| `OconModel.v` | libsepol/src/services.c 1880-2337 (sepol_port_sid, ibpkey, ibendport, node, netif, fs, genfs, fs_use), policydb.c genfs_read (insertion only) | byte decoding of the genfs section; the address family and length checks of sepol_node_sid (two separate requests here); the context byte strings |
| `AssertModel.v` | libsepol/src/assertion.c whole file except messages | allocation failures; NULL nodes in conditional lists; the 64-bit error sum is unbounded |
| libsepol/src/hierarchy.c 37-701 | HierModel.v | Allocation failures, the printed reports and the list of bad rules are not modelled (only their number, unbounded); symbol tables are lists in traversal order with lookup by name. |
| `TypesetModel.v` | libsepol/src/expand.c:59-72, 2393-2415, 2455-2636 | memory allocation failures other than `ebitmap_set_bit`'s own refusal are not modelled |
| ExpandModel | libsepol/src/expand.c rule expansion (helpers, find_avtab_node, conditional branch copying, neverallow copying); the two avtabs are lists of nodes with the conditional's identity and branch as scope (the code's list membership), allocation never fails, filename and range transitions left out |
| OptModel | libsepol/src/optimize.c, complete; a conditional rule is an address with its contents, kept in the branch lists, the hash chains of te_cond_avtab hold addresses; allocation never fails; a read outside an array or through a NULL type is a distinct outcome |
| Status* | libselinux/src/sestatus.c all functions; avc_internal.c avc_process_setenforce, avc_process_policyload, avc_netlink_check_nb and message handling; avc.c avc_open up to selinux_status_open and the start of avc_has_perm_noaudit. Not modelled: threads of the AVC, failing security_getenforce in avc_open, the kernel beyond the sequence-lock protocol, memory reordering: loads are sequentially consistent, while the C code has a barrier only before the field loads (read_sequence) and none between them and the second load of the sequence |
| Label* | libselinux/src/label_file.h regex_has_meta_chars, regex_simplify, stems, insert_spec; label_file.c sort_spec_node, nodups_spec_node, init (text files), search_literal_spec, search_child_node, lookup_find_deepest_node, lookup_check_node, selabel_apply_subs, selabel_sub_key, lookup_all, lookup, lookup_common, lookup_best_match, partial_match. Not modelled: binary files (load_mmap and merging), reading of lines (read_spec_entries) and of substitution files, digests, translation and validation of contexts, allocation failures; qsort is any function that sorts; the regular-expression engine is any function |
| Db* | libsemanage/src/database_llist.c/.h, database_file.c (cache and flush; the parser is a list of records), database_join.c, database.c entry points, user_record.c join/split/clone/set_name/compare | locks, transactions, printing and parsing of the files; allocation failures inside the join; the policydb, activedb and other backends |
| StoreModel.v | libsemanage/src/semanage_store.c: semanage_commit_sandbox, semanage_rename, semanage_copy_dir_flags, semanage_remove_directory, semanage_install_final_tmp, semanage_make_sandbox, the active directory of semanage_create_store | flat directories, finished calls are durable (fsync order and torn writes of one file not modelled; copies go through a temporary name that is not modelled), locks, restorecon, the stat calls choosing whether to reload, and everything of direct_api.c before and after semanage_commit_sandbox are not modelled |
| CodecModel.v | libsepol/src/write.c: role_set_write, type_set_write, mls_write_level, mls_write_range_helper, mls_write_semantic_level_helper, mls_write_semantic_range_helper, context_write, write_cons_helper, cond_write_node (state and expression), role_trans_write, role_allow_write, avtab_write_item, avtab_write; libsepol/src/policydb.c: the readers of these; libsepol/src/avtab.c: avtab_read_item, avtab_read; libsepol/src/conditional.c: expr_isvalid, cond_read_node (state and expression) | files are memory; loops capped by the bytes left (same result); writing the table for versions before 20, the rule lists of conditionals, modules' rules and symbol tables not modelled |
| FtransModel.v | policydb.c 825-867, 933, 2591-2850; write.c 580-690; expand.c 1410-1495; services.c 1764-1788 | allocations succeed; type sets are given expanded (ExpandModel); files are memory |
| LoginModel.v | libselinux seusers.c 19-93, 132-350; get_context_list.c 16-496; libsemanage seusers_file.c 22-43 | files are byte lists (None: cannot be opened); getgrnam/getgrouplist results and the kernel's answer to security_check_context are arbitrary parameters; allocations succeed; isspace of the C locale; the caller's context is given (getcon not modelled) |
| FcsortModel.v | libsemanage semanage_store.c 2303-2834 | allocations succeed; a text containing NUL bytes is outside the theorems; positions and lengths do not overflow |
| libselinux/src/sha1.c, label_support.c:123-150; libsemanage/src/sha256.c, modules.c:981-991 | Sha1Model.v, Sha256Model.v |
| libsemanage/src/direct_api.c:863-1120 (checksum of modules) | ChecksumModel.v; files and compilers are inputs |
| LinkModel.v | libsepol/src/policydb.c:1681-1786; link.c:1771-1857, 1927-2013, 2132-2214; avrule_block.c:155-191 | Names are numbers; hash tables are functions or lists; out of memory not modelled. |
| RoleattrModel.v | libsepol/src/link.c:2351-2403, 2546-2563; ebitmap.c ebitmap_set_bit/union | A bitmap is the number whose bits are set; the walk of the hash table is a list of role numbers. |
| RecordsModel.v | libsemanage/src/parse_utils.c, seusers_file.c, users_extra_file.c, users_base_file.c, booleans_file.c, ports_file.c, interfaces_file.c, fcontexts_file.c (print and parse), database_file.c (reading and writing loops) | nodes, ibpkeys and ibendports (address texts); memory and I/O errors; locale other than C |
| DenyModel.v | libsepol/cil/src/cil_deny.c, cil_find.c (allow rules) | reading and resolving CIL, memory, line information and the attribute expressions kept for printing are not modelled; bitmaps are numbers; the order of the class permissions in a result is not kept |
| OrderModel.v | cil_resolve_ast.c:1188-1408, 1465-1477, cil_verify.c:524-647, cil_list.c (insert, contains) | names are resolved; one record type for the four kinds; the loops have bounds that are proved sufficient |
| CilctxModel.v | libsepol/cil/src/cil_post.c 66-141 (context comparison), 169-570 (comparison functions), 2277-2331 (sorting and duplicates); cil_binary.c 3585-3627 (ports) | Names instead of datums, messages left out, qsort trusted to sort, addresses as numbers in network order |
| CilexprModel.v, CilexprSpec.v, CilexprProofs.v, CilexprEval.v, CilexprSets.v, CilexprSolve.v, CilexprMain.v, CilexprProps.v | libsepol/cil/src/cil_build_ast.c 2640-2738, cil_verify.c 147-251, 423-495, 1985-2026, cil_resolve_ast.c 71-115, 3186-3235, cil_post.c 881-1449, 1532-1600, 1877-1890, 2059-2094. Not modelled: lookup through blocks and macros, the expansion of attributes in rules, the pre-pass that numbers symbols, that a category set needs a list. |
| CilcondModel.v | cil_resolve_ast.c:3242-3363, cil_binary.c:2254-2630, cil_build_ast.c:2924-3039, cil_verify.c:366-398; the rules in a block are opaque and always added; preserve_tunables, copying of the AST and the checks on which statements may stand in a block are not modelled |
| CilparseModel.v | cil_lexer.l:44-96 (as longest-match functions), cil_parser.c:45-318 (linemarks, parentheses, comments, end of file) | line numbers, the string pool, the leading nodes with the path of the file |
| KcilModel.v | kernel_to_cil.c:32-118, 2186-2212; the parts of cil_gen_boolif and cil_verify_conditional_blocks that take the parse tree apart | the text of the rules (a parameter), sorting of the conditionals by their text |
| CilconsModel.v | `__cil_fill_constraint_expr`, `cil_gen_constrain`, `cil_gen_validatetrans` (cil_build_ast.c:2740-2922), `__cil_verify_constrain_leaf`-level checks (cil_verify.c:253-364), resolution of names (cil_resolve_ast.c:3152-3239), `__cil_constrain_expr_*_to_sepol_expr*`, `__cil_validate_constrain_expr`, `cil_constrain_to_policydb`, `cil_validatetrans_to_policydb` (cil_binary.c:2756-3240, 4149-4164). Name lookup is a table from names to value sets, given. |
| CilconsSpec.v | Formulas over contexts, when an expression spells one, which are legal, when they hold. |
| CilconsProofs.v, CilconsMain.v, CilconsProps.v | Proofs; theorems C77. |
| KconsModel.v | kernel_to_cil.c:122-422 (constraint_expr_to_str, class_constraint_rules_to_strs, class_validatetrans_rules_to_strs, constraint_rules_to_strs, validatetrans_rules_to_strs) and the writing order 3317-3318, 3407-3408; kernel_to_common.c:205-358 (strs_sort, strs_to_str, strs_write_each, ebitmap_to_str); util.c:85-133; cil_build_ast.c:3905-4000 without class permission sets and maps; expand.c:338-366 for types. Not modelled: the limit on the length of permission strings in util.c, memory exhaustion. |
| LabtextModel.v | label_support.c:25-120 (read_spec_entry, read_spec_entries); label_file.h:181-203 (string_to_file_kind), 797-870 (process_line without insert_spec); label_file.c:194-211 (process_text_file), 1264-1371 (selabel_subs_init); label_media.c:28-200, label_x.c:25-235, label_db.c:70-340 (line readers, init, lookup). Not modelled: opening of files, permissions and digests, memory failure, validation of contexts; sscanf of %ms is the splitting into words; fnmatch is a parameter |
| RestoreModel.v | selinux_restorecon.c:73-91, 401-521 (filespec_add), 592-648 (compare_portions), 652-804 (restorecon_sb without an alternative root and messages other than conflicts), 927-1047 and 1208 (the calls, by one thread and without stopping at errors); is_customizable_type.c:15-105. Not modelled: failing lsetfilecon, exclusion lists, digests (C65 models another digest), memory failure, the copy of filespec_add in matchpathcon.c |
| PackModel | libsepol/src/module.c: set_char, link_file_contexts, link_netfilter_contexts, sepol_link_packages, read_helper, module_package_read_offsets, sepol_module_package_read, sepol_module_package_info, sepol_module_package_write | stdio files, allocation failures, failing writes, error messages; policydb_write, policydb_read and link_modules (parameters); the leak of name and version when a later section is refused |
| ModstoreModel | libsemanage/src/direct_api.c: semanage_compile_module, semanage_compile_hll_modules, the loading of modules in a commit, semanage_direct_install, _extract, _remove, _list, _get_enabled, _set_enabled, _get_module_info, _set_module_info, _list_all, _install_info, _remove_key; modules.c: validators, semanage_string_to_priority, directory names; semanage_store.c: semanage_get_active_modules | failing system calls, compression, file modes, messages, transactions (C48, C51), the checksum (ChecksumModel), semanage_direct_install_file (the name from the file name); strverscmp is that of glibc |
| HomedirModel | libsemanage/src/utilities.c: semanage_is_prefix, semanage_str_replace, semanage_rtrim (newline), semanage_slurp_file_filter; genhomedircon.c: replace_all, extract_context, check_line, write_replacements, write_contexts, the four writers and their line predicates | the list of users and home roots (seusers, passwd, groups), comment lines, allocation and write failures; sepol_context_check is a parameter |
| ProcattrModel | libselinux/src/procattr.c: getprocattrcon(_raw), setprocattrcon(_raw) and the calls made from them for the own thread; setrans_client.c: selinux_trans_to_raw_context, selinux_raw_to_trans_context with their one-entry caches | openattr's paths, other processes, EINTR, allocation failures, the protocol with the daemon (an answer or a failure), colors, memory shared with a child by vfork |
| SelconfModel | libselinux/src/selinux_config.c: selinux_getenforcemode, init_selinux_config up to the policy type and require_seusers; get_default_type.c | paths made from the policy type, selinux_set_policy_root, allocation failures, overflow of atoi; for an empty type the code computes a pointer before its text, without using it |
* `SplitfcModel.v`: semanage_split_fc (libsemanage/src/semanage_store.c:1484-1549). Not modelled: failures of opening, writing and closing the files.

## Findings (statements of the list that are false of the code)

* C06: `ebitmap_not` with maxbit > 2^32-64 does not terminate.
* C09: category sets with a gap of a whole word print as a contiguous run; trailing text after a range is ignored.
* C13: left-over operands are accepted by evaluation (rejected by validation).
* C14: `a && !b` and `b && !a` are merged.
* C15: a failing normalisation leaves booleans changed.
* C24: parsing "<<none>>" dereferences NULL. C37: a trailing colon is lost; unset user then print is undefined.
* C46: two outer negations exchange the branches of a conditional during expansion.
* C47: reading a policy trusts the stored state of conditionals.
* C17: a negative evaluation result (operator without operand) is treated as satisfied by both callers; the policy reader refuses such expressions. Errors after the first element free uninitialised pointers. Left-over operands are ignored.
* C18: only the source's bounds mask; a cycle of bounds, which validation does not refuse, makes the computation recurse for ever.
* The AVC can hold two nodes for one triple when an answer leaves permissions undecided; a caller's reference or an eviction then brings back the older answer, and a revocation reaches only the first node (`C27_undecided_refuted`, `C28_undecided_refuted`). The kernel always decides everything, so this needs another policy server.
* With a class mapping installed and unknown permissions denied, map_decision reports permissions unknown to the policy as undecided, so the access vector cache can hold two nodes for one triple (the situation of the C27/C28 counterexamples) although the kernel decides every permission (C33_unknown_never_decided).
* A class mapping is not refreshed by a policy load: the library flushes its name cache but keeps the numbers of the old policy until the manager installs its table again (C33_after_load_refuted; documented).
* sepol_load_policy: an unreadable image destroys the policy in force (C42_unreadable_image_refuted); out of memory while cloning SIDs leaves the active table shut down (C42_clone_failure_refuted).
* After two loads a dropped SID number is handed out again for another context: the cloned table's next number is computed from the surviving entries (C54_numbers_reused_refuted).
* An initial SID of 2^32-1 makes the counter wrap: SID 0 is handed out as a success (C23_wrap_refuted).
* sepol_compute_sid in permissive mode prints the class name of an unauthorised result: for a class number 0 or beyond the table this reads outside the array (model outcome RUB).
* sepol_fs_use turns every failure of the genfs lookup, also a failed allocation, into success with "no labelling" and an unset SID (C55_failure_reported_refuted).
* `neverallow a { self b }` is not checked for the pair a, b: both the report pass and the extended permission check skip all pairs of different types when `self` is given (`C20_self_and_targets_refuted`, `C20_xperm_self_and_targets_refuted`).
* The number of neverallow failures of one rule is truncated to an int: 2^32 failures are accepted as none (`C20_count_wraps_refuted`); between 2^31 and 2^32 is reported as an internal error.
* `bounds_expand_cond_rules` (hierarchy.c) lacks the AVTAB_ALLOWED test that the unconditional walk has: an auditallow, dontaudit or type rule of the parent in a conditional hides a violation of the child (C21_bounds_sound_refuted).
* expand.c type_set_expand checks the range of included names but not of excluded ones: reading outside the array (`C25_missing_exclusion_refuted`); attributes containing attributes hit an assert under `~` (`C25_nested_attribute_refuted`).
* expand.c expand_terule_helper: a class for which the same rule exists already ends the class loop; the remaining classes of the rule get no type rule (`C57_classes_dropped_refuted`).
* expand.c find_avtab_node: when a conditional expression occurs twice, extended permissions of different drivers are merged into one node (`C57_xperms_merged_refuted`), and a conflicting type rule silently replaces the first (`C57_overwritten_refuted`).
* expand.c copy_neverallow: a neverallow rule whose sets cannot be expanded is reported but dropped, the expansion succeeds (`C57_neverallow_dropped_refuted`).
* sestatus.c: in fallback mode selinux_status_updated, called after an event, falls through to reading `selinux_status->enforcing` with selinux_status = MAP_FAILED (C31_fallback_refuted).
* sestatus.c: a mode switch between avc_open and the first selinux_status_updated is never noticed: the first poll takes the current sequence as already seen (C32_refuted).
* sestatus.c: the pair read by selinux_status_updated can be torn if exactly a multiple of 2^31 updates happen inside one call (C31_wrap_refuted); theoretical.
* label_file.c: the stems of an expression are cut at slashes without looking at what follows: `/foo/?bar` is kept below `/foo` and not found for `/foobar` (C34_refuted_stems).
* label_file.c lookup_check_node: an older `<<none>>` at a deeper node ends the search although a newer expression at a shallower node matches (C34_refuted_none).
* label_file.h insert_spec: with SELABEL_OPT_SUBSET paths outside the part asked for are answered without the expressions that have another first literal component (C34_refuted_subset, intended); a part of several components is refused (C79_subset).
* A literal in file_contexts.local does not override the same literal of file_contexts: both are kept, which one is found depends on qsort; with a stable sort the base file wins (C34_refuted_local).
* label_file.c lookup_best_match: an alias matched by an expression without fixed prefix is ignored when the path itself does not match (C36_refuted).
* label_file.c partial_match looks only at the node of the partial path and its ancestors: a specification below a deeper directory is not seen (C58_refuted).
* libsemanage set/modify frees the old record before copying the new one: if the copy fails the freed record stays in the list and the next lookup reads it (C39_refuted_memory).
* If get_serial fails once during a transaction (the commit number file cannot be opened), the call fails and every change made before in the transaction is forgotten; the following commit succeeds and writes nothing (C39_refuted_serial).
* dbase_file_flush clears the modified mark before fclose is checked: after a failed close a second flush reports success with an incomplete file (C39_refuted_flush).
* dbase_join_flush writes a blank half for every user that only had one, so tables are not restored by an unchanged store (C38_refuted_blank); duplicate names in a file give duplicate users (C38_refuted_duplicates).
* user_record.c:331 (error path of semanage_user_join) reads the name of record1, which may be NULL; direct_api.c:1968 indexes *modinfo[i] instead of (*modinfo)[i] on an error path. Read, not modelled.
* * Between the two renames of a commit the store has no active directory; nothing recovers from this: the next begin-transaction removes the prepared directory, and if the store may be created an empty policy store replaces the old one and the next commit removes the backup (C40_refuted_window, C40_refuted_recovery).
* * The roll back after a failed installation or reload calls the installation again with the same prepared files, so the failed commit leaves the new files installed, possibly loaded, over the old store (C41_refuted_rollback).
* * A commit whose only failure is the removal of the backup reports failure though everything is in force (C41_refuted_backup).
* * A prepared file whose stat fails for any reason is skipped, and the commit reports success (C41_refuted_skipped).
* C43: a module's semantic level comes back with its categories in the opposite order (C43_refuted_semantic).
* C43: an empty access vector table and a constraint without expression are written without error but refused when read (C43_refuted_table, C43_refuted_constraints).
* C43: before version 29 the types behind the names of a constraint are lost, before version 26 role transitions of other classes are lost, both without error (C43_refuted_constraints, C43_refuted_roles).
* C43: extended permission rules with one key come back in the opposite order (C43_refuted_table).
* C43: entries of the format before version 20 may set the bits of extended permission rules; such rules are then in the table of a policy whose version has none (C43_refuted_old).
* C59: policydb_filetrans_insert stops at the datum of the new type and does not look for the source type in later data, so conflicting rules are accepted when an earlier rule of the same parent, class and name already gives that new type to another source; the policy is then written in the format of version 33 to bytes that filename_trans_check_datum refuses (C59_refuted_conflict, C59_refuted_old).
* C59: a name beginning with NUL is read as the empty name, which is written and then refused (C59_refuted_name); a failed insertion still raises filename_trans_count (C59_refuted_failed).
* get_failsafe_context (get_context_list.c:314) reads and may write buf[-1] when the failsafe file starts with a NUL byte (`C61_refuted_failsafe`).
* libsemanage writes login mappings it cannot read back: a login starting with '#' becomes a comment (`C60_refuted_hash`), a level with a blank is cut at it (`C60_refuted_blank`).
* semanage_fc_find_meta (semanage_store.c:2439-2470) skips the character after a backslash without checking for the end: a path without metacharacters ending in an unpaired backslash makes it read past the string (C62_refuted_backslash).
* semanage_fc_sort drops text after the last newline silently, even a whole entry (C62_refuted_last).
* sha1.c `Sha1Update` checks the room left in its buffer with 32-bit sums (`j + BufferSize`), which wrap for an update of 2^32-63 bytes or more after a partial block; it then copies the whole update into the 64-byte buffer. `digest_gen_hash` (label_support.c:136-144) feeds pieces of UINT32_MAX bytes, so a label database of 2^33-64 bytes or more reaches this (`C63_refuted_size`).
* sha1.c swaps the bytes of each word without asking for the byte order of the host, so on a big-endian host the digest is not SHA-1 (`C63_refuted_endian`).
* direct_api.c:1039-1062 with `semanage_set_ignore_module_cache`: a module whose language is CIL is handed to `semanage_compile_module`, which returns at once without hashing anything. With `semanage_set_check_ext_changes` a change of such a module is not noticed and the rebuild is skipped (`C65_refuted_ignore_cache`).
* C66: a role or user that is declared in one block and only required in another counts as present while the requiring block is enabled (is_id_enabled accepts any listed block), so an optional block can satisfy its own requirement on a role.
* C66: a type that a block requires, another block requires, and the first block then declares: the scope entry names the other block (symtab_insert does not move an id that is already listed, policydb.c:1758-1763).
* C67: a mandatory block that misses a class makes enable_avrules print a missing_requirement_t that was never written (link.c:1976 returns 0 without writing req; link.c:2181 reads it), or one left over from an optional block.
* C68: role attributes that contain each other: expand_role_attributes reads a freed ebitmap node (link.c:2388 continue after the node has been freed by ebitmap_set_bit), or loops without end.
* Text files of libsemanage (C69): a record whose first field starts with '#' is written as a comment and lost on the next read; it can come from the API or from a second record on a line (C69_refuted_hash, C69_refuted_comment).
* Text files of libsemanage (C69): port numbers above INT_MAX wrap (4294967295 is accepted as -1) and make the file written next unreadable (C69_refuted_port).
* Text files of libsemanage (C69): a user without roles is read back with a role of empty name, a level without a range is dropped (C69_refuted_user).
* Text files of libsemanage (C69): a booleans file ending in "name=" compares a NULL pointer; a users file ending in a role name without newline reads past the line (C69_refuted_ends).
* C70: cil_create_and_insert_attribute_and_set (cil_deny.c:856-858) destroys the attribute record, and with it the bitmap, when the name deny_rule_attr_N is in use; the three callers then free the bitmap again (965, 1025, 1085). A policy that declares such a name itself makes the compiler free memory twice (`C70_refuted_name`).
* C70: the CIL documentation says of `notself` that it is all types except the types of the source; cil_binary.c:1530-1545 and cil_deny.c treat it as all types except the one source type at hand. The specification follows the code.
* C71: whether order statements can be merged depends on their sequence: (1 2 3) (4 1) (4 2) gives 4 1 2 3, but (1 2 3) (4 2) (4 1), which determines the same order, is refused, because the second statement puts 4 right before 2 (`C71_refuted_found`).
* C72: `cats_compare` (cil_post.c:66-83) returns 0 for all category lists, so labelling rules for one object whose contexts differ only in categories are merged without an error (`C72_refuted_categories`).
* C72: two equal `filecon` rules with an empty context make `context_compare` read NULL when multiple declarations are allowed (`C72_refuted_no_context`).
* C72: `cil_post_genfscon_compare` ignores the class of files: a rule for files and one for directories at the same path with one context are merged (`C72_refuted_class`).
* C72: `portcon` accepts numbers of 32 bits that are cut to 16 bits in the policy: a rule for port 65616 labels port 80, and being narrow it wins over wider rules (`C72_refuted_port`).
* `(all)` in the permissions of a class that has none makes compilation fail: the maximum `0 - 1` wraps to UINT_MAX and ebitmap_init_range reports overflow (C73_refuted_all_of_nothing).
* CIL compiles (booleanif (and a (not b)) ...) and (booleanif (and b (not a)) ...) into one conditional, because the truth tables are compared with each condition's own order of booleans: the rules of the second follow the first condition (C74_refuted_in_force; the same comparison as in C14).
* C75: CIL line marks are checked against their own stack only: a mark opened inside a statement and closed after it makes the closing parenthesis close the mark, and later statements become part of the first one (`C75_refuted_line_marks`).
* C75: the lexer ends a comment at a carriage return, but a quoted string may contain one; with bare carriage returns as line ends, a comment with one quote swallows statements up to the next quote (`C75_refuted_carriage_return`).
* C76: a boolean may be called `all` or `range` (in the policy language and in CIL declarations), but a CIL condition cannot mention it; writing such a policy as CIL gives text that does not compile (`C76_refuted_name`).
* C76: a conditional without rules (for example only dontaudit rules, compiled with dontaudit rules disabled) is written as `(booleanif expr )`, which the CIL compiler refuses (`C76_refuted_empty`).
* C77: the operand check lets `l1` stand on the right side of every relation: `(eq l1 l1)` is compiled to l1 = h2 and `(eq u1 l1)` to u1 = u2 (`C77_refuted_l1`).
* C77: `(dom t1 some)` (also domby, incomp) is accepted; the compiled expression has no value of its own: it and its negation deny everything, and after another operand the evaluator reads an uninitialised cell; policy validation on load refuses it (`C77_refuted_names`).
* C77: transition rules are not checked for depth: six pending operands are accepted and overrun what the evaluator supports (`C77_refuted_deep`).
* C78: expansion of modules keeps for a constraint only the positive types of its type set (expand.c:349-354), not the complement flag and not the excluded types, and kernel_to_cil writes these names: `constrain file read (t1 == ~ta)` is written as `(constrain (file (read)) (eq t1 ta))`, the opposite (C78_refuted_complement). kernel_to_conf and audit2why use the same names.
* C78: a type may be called t2; a constraint comparing t1 with it is written `(eq t1 t2)` and read back as the comparison of source and target type (C78_refuted_operand).
* C78: an empty set of names is written as NO_IDENTIFIER, and a permission called eq, neq or range first in its list is read as an operator; the text cannot be compiled (C78_refuted_refused).
* label_support.c read_spec_entries: the loop takes an argument with va_arg before it knows whether there is another word; a line of two words followed by a blank makes it take, in a call with three arguments, a fourth (C79_refuted_arguments). It is not stored through (C79_no_wild_store).
* label_file.c selabel_subs_init: the buffer is neither cleared nor checked; a last line of one word without newline makes it read what follows the terminator: the target of the line before (C80_refuted_stale) or uninitialised bytes (C80_refuted_uninitialised). Lines longer than 1022 bytes are read as several, so the end of a long comment can become a rule (C80_refuted_long).
* selinux_restorecon.c filespec_add: associations are kept by inode number without the device, so in a walk over several file systems (SELINUX_RESTORECON_ADD_ASSOC without XDEV) a file with the number of a file met before on another one is not labelled, silently if the contexts agree (C82_refuted_devices).
* selinux_restorecon.c filespec_add: when the remembered path no longer names the inode, the association is replaced but 1 is returned, which makes restorecon_sb skip the new file as already labelled (C82_refuted_reused); in matchpathcon.c the caller still got its own specification.
* selinux_restorecon.c compare_portions: a context of the form "u:r:" has no type and strcmp gets NULL (C83_refuted_null).
* is_customizable_type.c customizable_init: the last character of every line is removed, newline or not (C83_refuted_last); a line beginning with NUL makes it store before its buffer (C83_refuted_nul).
* module.c sepol_module_package_info: it reads eight bytes of every section, so a package whose last text has less than four bytes is refused although sepol_module_package_read accepts it (C84_refuted_info_short).
* module.c sepol_module_package_read: the reader of policies gets the rest of the file, not the section, so a policy may run on into the next sections (part of the statement of C84_read_exactly).
* module.c sepol_module_package_write: the offsets are computed in uint32_t, without a check, so texts of 4 GiB in all give a file that is not read back (precondition of C84_round_trip).
* C85: semanage_direct_install_info compares the extension with strcasecmp and semanage_direct_extract with strcmp. A module installed with the extension CIL (capitals) is stored as CIL, but extraction of the source reads the file hll: it fails, or gives the data of an earlier installation in another language (C85_extract_refuted).
* C85: semanage_direct_list (direct_api.c:1960-1975) frees modinfo[i] instead of (*modinfo)[i] when it fails, out of bounds for more than one module; read, not modelled.
* C86 (`C86_refuted_home`): replacements are made one after another, so a home with the word ROLE in it (user ROLEX) is rewritten with the prefix and another path is labelled.
* C86 (`C86_refuted_blank`): a template line ending in `<<none>>` and a blank makes the generation fail for all users, as extract_context keeps the trailing blanks.
* C86 (`C86_refuted_path`): if the text of the context occurs earlier in the line, the path is changed and the context kept.
* C87 (`C87_refuted_stale`): a failure of the translation daemon is remembered as if the text translated to itself; the same text stays untranslated after the daemon has recovered, until another text is asked for.
* C87 (`C87_refuted_spelling`): a get after a set gives the spelling that was set, not the one the kernel keeps.
* C87 (`C87_refuted_refused`): setting the same context again succeeds without asking the kernel, also if the kernel has come to refuse it.
* C88 (`C88_refuted_require`): REQUIRESEUSERS=true sets the requirement to 0 and REQUIRESEUSERS=false to 1: the results of strncasecmp are used the wrong way round.
* C88 (`C88_refuted_last_line`): get_default_type drops the last character of a last line without newline.
* C88 (`C88_refuted_blank`): a blank before SELINUX= makes the line ignored, while it is allowed before SELINUXTYPE=.
* C89 (`C89_refuted_lost`): a line such as `/opt/CONTROLER(/.*)? ...` (with the letters ROLE) is moved out of file_contexts into the template, from which nothing is ever generated for it: its label is lost without a message.
* C89 (`C89_refuted_twice`): `HOME_DIR/USERDATA` is written for the home directory and once more with the path `HOME_DIR/joeDATA`.
* C89 (`C89_refuted_long`): the end of a HOME_DIR line of more than 4095 characters lands in file_contexts as a line of its own.

## How to read seeded/LOG.jsonl

Each line is one wrong version of a model definition, built in a scratch copy. Lemmas whose scripts fail are admitted
there and the build goes on; `lemmas_failed` lists them. `theorems_failed` lists the property theorems whose proof no
longer goes through, either because their own script fails or because `Print Assumptions` shows that they use a lemma
that failed. This is weaker than "the statement is false of the wrong version": a theorem may be listed although its
statement still holds, because it shares a lemma with one that does not. An empty list is a surviving mutant; those
led to tightened statements, and the line stays in the log beside the line of the new run.

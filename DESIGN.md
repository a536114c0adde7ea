# Formal model of cee-std: design

## What is modelled

The C sources of cee-std are modelled function by function in Gallina
(`rocq/theories/*Model.v`).  Every definition carries a comment with the `/repo` file
and lines it models and any simplification made.  Specifications are in `*Spec.v`
(and `Json.v`), proofs in `*Proofs.v`, `*Lemmas.v` and `*History.v`.
The files `Prop*.v` hold the property theorems, a concrete `Example` next to them,
the refutations, and `Print Assumptions`.

Undefined behaviour is a distinct outcome in every model (`Bad` with a reason: NULL
dereference, out of bounds, use after free, double free, division by zero,
indeterminate value, misuse of a va_list, signed overflow, wild pointer, abort),
never a default value.  So "does not go wrong" is part of what is proved, and
"goes wrong" is a theorem with a witness (`..._refuted`).  Loops that need not end
run on fuel; `Bad OutOfFuel` is excluded by the theorems, and divergence is the
statement that no fuel suffices.

### Layers

| layer | files | models |
|---|---|---|
| base | Base, ArrayLemmas, Numeral | outcomes, machine integers, arrays with indeterminate cells, decimal numerals |
| search tree | Tsearch* | musl-tsearch.c |
| set, map | Set*, Map* | set.c, map.c |
| list, stack | List*, Stack* | list.c, stack.c |
| dictionary | Hsearch* | musl-hsearch.c, dict.c |
| settings of databases, directories, making, migrating and saving databases | DbmText*, DbmDir*, DbmInit* | sqlite3/cee_dbm.c |
| linked lists, linear search | Queue*, Lsearch* | musl-insque.c, musl-lsearch.c |
| strings | Str* | str.c |
| string views | StrView* | strview.c |
| memory | Heap* | cee-common.c, cee-resize.h, state.c, block.c and the trace functions of every container: blocks with header (state, trace_prev, trace_next, in_degree modulo 2^16, retained, gc_mark), collection, deletion |
| counting | HeapRc* | reference counts and deletion policies over arbitrary object graphs |
| values | Boxed*, Env*, Product* | boxed.c, env.c, singleton/pair/tuple/triple/quadruple/n_tuple/tagged |
| UTF-8 | Utf8* | cee-json/tokenizer.c:9-234 |
| JSON text | JsonTok*, JsonParse*, JsonPrint*, JsonEscape* | cee-json/tokenizer.c, parser.c, snprint.c, cee_json_escape_string |
| memory of JSON values | JsonEdit* | cee-json/value.c on the object heap: setting, inserting, removing, renaming |
| memory of the JSON printer | JsonPrintMem*, JsonWrite* | cee-json/snprint.c on the object heap, programs that edit and print |
| closures | Closure* | closure.c with env.c and map.c in shared memory; functions are programs over library calls |
| connections | Conn*, PropConn | cee_sqlite3_init, attach, detach, pragma and copies of operations of cee-sqlite3.c |
| hash table programs | Htable*, PropHtable | musl-hsearch.c with several tables, memory and pointers to entries |
| blocks | Block*, PropBlock | block.c; cee_str_strn, cee_str_end, cee_str_ncat, cee_block_empty of str.c |
| sharing of JSON values | JsonShare* | cee-json/value.c on the object heap: one value in several arrays and objects, concatenation, deletion |
| memory of the JSON parser | JsonMem*, JsonNames* | cee-json/parser.c on the object heap; deleting values |
| JSON values | JsonHeap*, JsonArray*, JsonAccess*, JsonSelect* | cee-json/value.c: values in memory with sharing |
| JSON files | JsonFile*, JsonMergeAll* | cee-json/value.c: load and save; cee_json_merge.c |
| SQL | Sql*, SqlJson*, SqlInsert*, SqlJoin*, SqlAs* | sqlite3/cee-sqlite3.c, join.c |

### Conventions

* Pointers to user data are elements of an abstract type; comparison functions
  are parameters with the hypotheses a user must guarantee (total order up to
  equivalence), stated in the theorem.
* `malloc`/`realloc`/`calloc` succeed (the code calls `segfault()` when they do not).
* Machine integers: where wraparound or overflow can matter it is written out; the
  bounds are in the theorems.
* x86-64 layout: `sizeof(struct cee_sect)` = 56, string header 72 (data at 64),
  block header 80 (data at 72); `char` is signed.
* `cee_str_mk` uses its va_list twice (C12), which is undefined as soon as the format
  has a directive.  Everything that builds a string with it would be undefined too.
  So layers above take "what cee_str_mk gives" as a parameter `mk_str`: with
  `c_str_mk` (the C standard) the failure is proved, with `byval_str_mk` (a va_list
  passed by value) the rest of the code can be examined.

## Trusted base

* Coq 8.16.1's kernel (and `coqc`/`coqchk`).
* The reading of the C code: each model definition is a hand translation; the
  comments give the lines to compare.
* Print Assumptions says "Closed under the global context" for every theorem of the
  files `Prop*.v`: no axioms are used.  A checker that lists the axioms of all loaded
  library files (`coqchk -o`) also shows seven constants of the standard library,
  `Coq.ssr.ssrunder.Under_rel.*`, which are sealed by a module type there and are not
  used by any theorem here.
* The C library (`vsnprintf`, `strtoll`, `malloc`, `memcpy`, `strcmp`, ...) behaves as the
  comments say.  `strtod` and what `%lg` prints are arbitrary parameters.  `isdigit`,
  `isspace` and `isxdigit` of negative chars are taken to be false (they are undefined
  in the standard).  `%.*s` with a length of 2^31 or more is not modelled.
* SQLite is a parameter: any function that gives the parameters of a statement, what
  running it with given values does, and the counters.

Not modelled: floating-point
formatting and reading, SQLite itself, threads.

## Seeded bugs

`seeded/LOG.jsonl` has one entry for each wrong program tried: a definition of the model was
edited in a copy and everything was rebuilt.  `theorems_failed` are the statements whose proofs
no longer go through; `property_theorems_blocked` are the property theorems that use them.  A
proof that fails is not a proof that the property is false of the edited model; entries whose
edit does not change what the model computes are marked as equivalent.  When an edit survived,
the entry says so, and `theorems_tightened` names what was changed because of it.

As a second check the edited models were rebuilt with all proofs left out and only the Examples
kept: `examples_false` lists the concrete Examples (beside the theorems) that the edited program
makes false, which shows without any proof that its behaviour is wrong.  For entries without this
field no Example happens to exercise the edit; that they are wrong was judged by reading.

## Properties

For each property: how it is stated and proved, and what is known to be false of
the code.  `_partial`: proved under the restriction given in the note; `_refuted`:
false of the model of the code as it is, with a witness.

* **C01** Map is a finite map under every history. *proved* (PropMap.v)
  How: map layer over the search tree; refinement over histories (lists of operations) to an association-list specification.
  Proved: `C01_map_is_finite_map`, `C01_find_returns_latest`.
  Histories of fewer than 2^31 operations (the code counts keys with an int); renaming a key bound to NULL is excluded here, see C46.
* **C02** Map remembers insertion order of keys. *proved* (PropMap.v)
  How: same histories; the key list is part of the map model.
  Proved: `C02_insertion_order`, `C02_keys_exactly_once`.
* **C03** Set is a finite set under every history. *partial* (PropSet.v)
  How: set layer; membership for all histories, size under a condition.
  Proved: `C03_set_membership`, `C03_set_is_finite_set_partial`, `C03_set_count`, `C03_set_clear`.
  False: `C03_set_size_refuted`.
  Membership proved for all histories, clearing included. Size/emptiness proved when no pointer already present is added again; false otherwise (witness); what they are then is proved too.
* **C04** Ordered containers stay balanced, so their fixed-size path buffer never overflows. *proved* (PropTree.v)
  How: balance invariant by induction, Fibonacci bound on the size, path length against the array of 96 entries.
  Proved: `C04_tree_balanced`, `C04_path_buffer_sufficient`.
* **C05** Walking a set or map visits every element exactly once. *proved* (PropMap.v, PropSet.v, PropTree.v)
  How: the walk with its h==1 leaf test is the pre-order enumeration; permutation of the contents.
  Proved: `C05_tree_walk_visits_once`, `C05_map_walk`, `C05_set_walk`.
* **C06** List is a sequence under append, insert and remove. *proved* (PropList.v)
  How: array with capacity and indeterminate cells; refinement to sequences over histories.
  Proved: `C06_list_is_sequence`.
  Fewer than 2^31 operations (int loop counters).
* **C07** Out-of-range list indices are harmless. *partial* (PropList.v)
  How: case analysis; out of range insertion by witness.
  Proved: `C07_remove_out_of_range`, `C07_insert_exact`.
  False: `C07_insert_out_of_range_refuted`.
  Removal proved; insertion out of range is false (witnesses); C07_insert_exact says what it does for every index out of range.
* **C08** List iteration and merging. *partial* (PropList.v)
  How: induction over the callback run; self-merge by showing that no fuel suffices.
  Proved: `C08_iterate_partial`, `C08_null`, `C08_merge_partial`.
  False: `C08_iterate_empty_refuted`, `C08_merge_self_refuted`.
  Iteration on an empty list returns an indeterminate value; merging a list into itself does not terminate.
* **C09** Stack is a bounded LIFO. *proved* (PropList.v)
  How: wrapped top index; refinement to a bounded list.
  Proved: `C09_stack_is_bounded_lifo`.
* **C10** Dictionary lookup. *proved* (PropDict.v)
  How: open addressing table invariant, growth; refinement to a first-wins association list.
  Proved: `C10_dict_first_add_wins`.
  Up to 2^61 adds. The requested table size (float arithmetic in cee_dict_mk_e) is an arbitrary parameter.
* **C11** Dictionary probing always terminates. *proved* (PropDict.v)
  How: triangular numbers modulo 2^k are a permutation; load invariant.
  Proved: `C11_probe_covers_table`, `C11_lookup_terminates`.
* **C12** Creating a string by format. *partial* (PropStr.v)
  How: a va_list is an argument list that is consumed; byte array for the block.
  Proved: `C12_mk_partial`, `C12_mk_directive_fails`, `C12_mk_e_text`, `C12_mk_e_room_partial`.
  False: `C12_mk_refuted`, `C12_mk_e_room_refuted`, `C12_mk_e_room_all_refuted`.
  cee_str_mk uses its va_list twice: every format with a directive is undefined behaviour. cee_str_mk_e prints correctly but ignores n when a format is given.
* **C13** Growing a string never corrupts it. *partial* (PropStr.v)
  How: block with byte count, both growth methods.
  Proved: `C13_growth_partial`.
  False: `C13_add_realloc_refuted`, `C13_add_realloc_all_refuted`, `C13_add_long_refuted`, `C13_add_long_all_refuted`.
  Proved for the malloc method and for catf/replace under realloc. Refuted: cee_str_add to any full string under realloc reads the freed block; any string of 2^32 bytes or more is overwritten at its length modulo 2^32.
* **C14** Trimming strings. *partial* (PropStr.v)
  How: exact result of both loops, then the counterexamples.
  Proved: `C14_rtrim_partial`, `C14_ltrim_partial`, `C14_rtrim_exact`, `C14_ltrim_exact`.
  False: `C14_rtrim_refuted`, `C14_ltrim_refuted`.
  Exact behaviour proved; the first character is never trimmed on the right, one leading blank always stays on the left.
* **C15** Replacing substrings. *partial* (PropStr.v)
  How: buffer with bounds; induction over the occurrences.
  Proved: `C15_replace_at_offset`, `C15_replace_all_partial`.
  False: `C15_replace_at_offset_refuted`, `C15_replace_all_refuted`.
  Right text always; exact condition for the one-byte overflow.
* **C16** Replacing several substrings at once. *partial* (PropStr.v)
  How: buffer, division and loops with fuel; exact condition for overflow.
  Proved: `C16_replace_ext_partial`, `C16_replace_ext_exact`.
  False: `C16_replace_ext_refuted`.
  Exact condition for overflow; division by zero when a replacement list has only empty new texts or an empty old text.
* **C17** String views only look inside the viewed text. *partial* (PropStrView.v)
  How: views are offset and 64-bit count into a byte list; partition theorems.
  Proved: `C17_trim`, `C17_chop_sides`, `C17_chop_by_delim`, `C17_try_chop_by_delim`, `C17_while`, `C17_from_cstr`, `C17_chop_by_sv_partial`, `C17_chop_by_sv_exact`.
  False: `C17_chop_by_sv_end_refuted`, `C17_chop_by_sv_long_refuted`.
  Everything proved except chopping by a text: it keeps a delimiter at the very end of the view and underflows for a delimiter longer than the view; C17_chop_by_sv_exact says what it does for all views and delimiters.
* **C18** Boxed primitives round-trip. *proved* (PropBoxed.v)
  How: tag and 64-bit pattern.
  Proved: `C18_round_trip`, `C18_other_type`, `C18_print`.
  Floating-point values are bit patterns; how libc prints them is a parameter (no claim about their text).
* **C19** Environment lookup is lexical scoping. *partial* (PropEnv.v)
  How: chain of maps.
  Proved: `C19_lexical_partial`, `C19_exact`.
  False: `C19_null_value_refuted`, `C19_null_vars_refuted`.
  Proved for all chains of environments with maps whose values are not NULL. A name bound to NULL does not shadow; an environment without a map hides all outer ones. C19_exact says what is found in all chains, these included.
* **C20** Deleting a state releases every block exactly once. *proved* (PropHeapChain.v)
  How: heap of blocks with header fields; history invariant: chain from the state, log of frees.
  Proved: `C20_state_delete`.
  For every history of library calls under one state (all constructors, element operations, resizing with both methods, deletion, collection) deleting the state succeeds and frees each remaining block once; h_freed is the log of all frees.
* **C21** The allocation chain stays well formed. *partial* (PropHeapChain.v)
  How: same invariant.
  Proved: `C21_chain_partial`, `C21_chain_end_partial`, `C21_sweep_partial`.
  False: `C21_end_refuted`, `C21_end_realloc_refuted`, `C21_gc_after_resize_refuted`, `C21_gc_loops_refuted`.
  Chain from the state to its tail proved for all histories; that the tail ends the chain proved for histories resizing only the newest block, and refuted otherwise: a resized block keeps its old trace_next, after which collection loops or touches freed memory.
* **C22** Collection never frees what is reachable from the roots. *partial* (PropHeapGc.v)
  How: reachability of the mark phase by induction on the graph.
  Proved: `C22_partial`, `C22_again_partial`.
  False: `C22_closure_refuted`, `C22_map_keys_refuted`.
  For every history, everything the state holds except closures stays, unchanged. Closures and what they capture are freed; so is the internal key list of every map, the contexts map included.
* **C23** Collection reclaims all garbage. *partial* (PropHeapGc.v)
  How: mark parity invariant over two collections.
  Proved: `C23_partial`, `C23_twice_partial`, `C23_between_partial`.
  False: `C23_refuted`.
  Exact contents after every odd-numbered collection and after any two consecutive ones, for histories resizing only the newest block; refuted for even-numbered ones: new garbage carries mark 0. What an even-numbered one leaves is exact too (C23_between_partial): everything made since the one before stays, if no block is resized in between.
* **C24** Collection terminates on every object graph. *partial* (PropHeapGc.v)
  How: rank of an acyclic graph bounds the fuel; divergence for a cycle.
  Proved: `C24_partial`.
  False: `C24_refuted`.
  Terminates on acyclic graphs of live objects with any sharing; diverges on a self-containing list.
* **C25** Reference counts are exact. *partial* (PropHeapRc.v)
  How: separate layer HeapRc*: invariant in_degree = number of holders, over lawful histories and arbitrary graphs.
  Proved: `C25_counts_partial`, `C25_delete_partial`, `C25_acyclic_partial`.
  False: `C25_overflow_refuted`, `C25_env_refuted`, `C25_map_readd_refuted`, `C25_set_refuted`.
  Proved for every object graph (cyclic ones too) brought about by lawful calls on lists, stacks, products, tagged values, maps and contexts. False, with witnesses, for 65536 holders, environments that count, re-adding a value to a map, and sets. Dictionaries, resized objects and explicit count changes are outside the proved class.
* **C26** The no-operation deletion policy leaves elements alone. *partial* (PropHeapRc.v)
  How: frame properties of each operation.
  Proved: `C26_operations`, `C26_delete_partial`, `C26_make`.
  False: `C26_map_keys_refuted`, `C26_map_foreign_key_refuted`, `C26_dict_refuted`, `C26_gc_refuted`.
  Proved in every heap for lists, stacks, sets, products, tagged values and environments, and for deletion after every history. False for the keys of maps and for dictionaries, whose internal lists count; the collector follows no-operation elements.
* **C27** Exclusive ownership. *partial* (PropHeapRc.v)
  How: case analysis and history invariant.
  Proved: `C27_retained`, `C27_delete_holder`, `C27_owner_partial`.
  False: `C27_count_then_own_refuted`, `C27_release_refuted`, `C27_two_owners_refuted`.
  Proved: a retained object outlives every sequence of counted operations and the deletion of counting lists and stacks; in lawful histories an owned object is freed exactly with its owner. False when counted and owned references are mixed, with witnesses.
* **C28** JSON print/parse round trip. *proved* (PropJsonPrint.v)
  How: parser simulation on the printed text (token by token).
  Proved: `C28_round_trip`.
  both formats; height at most 498 compact and 127 readable, which is what the printer supports (C34); strings below 4 GiB
* **C29** The parser accepts only JSON. *partial* (PropJsonParse.v)
  How: separate grammar of RFC 8259 and a relaxed one; simulation between state machine and grammar.
  Proved: `C29_accepts_only_partial`, `C29_relaxed_language`, `C29_no_nul`.
  False: `C29_trailing_comma_refuted`, `C29_leading_zeros_refuted`, `C29_invalid_utf8_refuted`, `C29_unpaired_surrogate_refuted`, `C29_comment_refuted`.
  Accepted texts are characterised exactly: RFC 8259 relaxed by trailing commas, superfluous zeros before a fraction or exponent, unvalidated bytes in strings without escapes, a trailing unpaired high surrogate, saturated integers, strings cut at U+0000, and a comment containing a NUL. Each relaxation has a witness.
* **C30** The parser accepts all JSON. *partial* (PropJsonParse.v)
  How: induction on the grammar.
  Proved: `C30_accepts_all_partial`, `C30_exact`.
  False: `C30_big_integer_refuted`, `C30_all_big_integers_refuted`, `C30_nul_refuted`.
  All RFC texts nested less than 512 deep whose integers fit 64 bits and whose strings do not contain U+0000 are accepted with their value. The two restrictions are necessary. C30_exact covers the texts without them: all are accepted, with strings that end at their first U+0000 and integers replaced by the nearest one of 64 bits.
* **C31** Parsing always terminates with a value or an error and a stack that never overflows. *partial* (PropJsonParse.v)
  How: fuel bound from the text length; stack bound as an invariant of the machine.
  Proved: `C31_terminates_partial`, `C31_stack`, `C31_depth`.
  False: `C31_line_number_refuted`.
  Termination, absence of failures, stack bound, depth bound; the reported line counts from 0, not 1.
* **C32** The parser never reads outside the given buffer. *partial* (PropJsonFile.v, PropJsonParse.v)
  How: reads outside the block are failures; the block is the text and a NUL, or the text alone.
  Proved: `C32_bounds_partial`, `C32_independent_partial`.
  False: `C32_overread_refuted`, `C32_number_all_refuted`, `C32_overread_value_refuted`, `C32_overread_value_all_refuted`.
  With a NUL behind the text nothing beyond it is read; without it the parser reads beyond buf+len, for all texts that are a number; if the number goes on there, all of it is read whatever length was given.
* **C33** Measured and written print length agree. *partial* (PropJsonPrint.v)
  How: the explicit-stack printer against a recursive printer, for both passes.
  Proved: `C33_compact`, `C33_both_partial`, `C33_dprintf_partial`.
  False: `C33_deep_readable_refuted`, `C33_blob_refuted`, `C33_blob_all_refuted`.
  compact at any depth; readable up to 127 levels; values without blobs; refuted for blobs (cee_str_mk with a directive, C12) and for readable at 130 levels (char tab counter overflows, asprint writes before its buffer)
* **C34** Printing is complete at every depth. *partial* (PropJsonPrint.v)
  How: the same, and the grammar.
  Proved: `C34_complete_partial`.
  False: `C34_deep_refuted`, `C34_readable_refuted`, `C34_infinite_refuted`.
  complete up to 498 levels compact, 127 readable, when doubles print as numbers; refuted beyond and for infinite doubles
* **C35** UTF-8 validation is exact. *proved* (PropUtf8.v)
  How: decoder against RFC 3629.
  Proved: `C35_validate_exact`, `C35_encode_decode`, `C35_decode_encode`, `C35_encode`.
* **C36** String unescaping is correct and stays in its buffer. *partial* (PropJsonLit.v)
  How: capacity in the model of the output block; relation `chars` of escapes and text.
  Proved: `C36_bounds`, `C36_decodes`, `C36_unpaired_low`, `C36_unpaired_high_partial`.
  False: `C36_unpaired_surrogate_refuted`.
  Bounds and decoding in full; unpaired surrogates are rejected except a high one at the very end, which is dropped.
* **C37** Integer literals are exact. *partial* (PropJsonLit.v)
  How: saturating strtoll.
  Proved: `C37_exact_partial`, `C37_nearest`, `C37_leading_zeros`.
  False: `C37_silent_change_refuted`.
  Exact within 64 bits; out of range literals saturate silently; leading zeros rejected.
* **C38** Object field update and lookup. *partial* (PropJsonHeap.v)
  How: values in memory (`holds`); history refinement to a function from names to values.
  Proved: `C38_stored`, `C38_get`, `C38_remove`, `C38_history_partial`.
  False: `C38_set_refuted`.
  C38_get and C38_remove are about the code as it is. C38_history_partial: every history of set (null, bool, double, i64, u64, string, existing value), remove, rename and get on an object behaves like a function from names to values, provided that cee_str_mk(st, "%s", key) gives the key, as it does where a va_list is passed by value; by the C standard it does not (C12), and C38_set_refuted shows that then no field can be set or renamed. Histories shorter than 2^31.
* **C39** Selector paths. *partial* (PropJsonSelect.v)
  How: selector machine over bytes; separate syntax of paths.
  Proved: `C39_path_partial`, `C39_documented_partial`, `C39_any_selector_partial`.
  False: `C39_end_refuted`, `C39_name_argument_refuted`, `C39_number_refuted`, `C39_index_refuted`, `C39_statement_refuted`.
  Proved: every well-formed path with names in the selector and indexes in the selector or as arguments selects what it leads to; :n means int64 and :s a string owned by the library (C39_documented_partial: the documented meaning for all other types). Every selector without *, not ending in . [ or : and without ten consecutive digits only reads the selector and returns NULL or a part of the value. Refuted: selectors ending in . [ or : read past the end; * for a name compares uninitialised bytes; doubles fail :n; an index of 2^31 is undefined.
* **C40** Merging JSON values. *partial* (PropJsonHeap.v)
  How: recursive model in memory with the live walk of the tree; specification function on values.
  Proved: `C40_merge_partial`, `C40_merge_or_return_partial`.
  False: `C40_self_refuted`, `C40_shared_refuted`.
  C40_merge_partial: for all values, if no array or object is in dest twice or in both dest and src: terminates, the result is the merge (objects recursively, src wins, arrays concatenated), src is unchanged, only containers of dest change. Refuted with sharing: an array merged with itself never ends; a dest that has a value in two places changes src.
* **C41** Deep search. *proved* (PropJsonHeap.v)
  How: induction over values.
  Proved: `C41_search`, `C41_iff`.
  For all values in memory, shared or not: found if and only if some nested object has the key, and then the value found is stored under it.
* **C42** Appending to an object field. *partial* (PropJsonHeap.v)
  How: case analysis in memory.
  Proved: `C42_array_partial`, `C42_string_partial`, `C42_absent_partial`.
  False: `C42_kinds_refuted`, `C42_string_refuted`, `C42_self_refuted`.
  Array fields: the code as it is. String and absent fields: if cee_str_mk(st, "%s", key) gives the key (see C38); an absent field becomes the value itself, not an array. Refuted: fields that are objects (NULL dereference), null, booleans or numbers (abort), strings with the standard va_list, and appending an array to itself (never ends).
* **C43** Escaping a string for JSON. *partial* (PropJsonEscape.v)
  How: byte array; inverse of unescaping.
  Proved: `C43_escape_partial`, `C43_exact`.
  False: `C43_control_refuted`, `C43_statement_refuted`, `C43_small_refuted`.
  Proved for all strings without control characters other than \b \t \n \f \r, with room for two bytes each. C43_exact says what the text is for all strings: other control characters produce \u00 without its last two digits. The size of dest is ignored.
* **C44** SQL parameters: all bound with the right value, or nothing runs. *partial* (PropSql.v)
  How: binding loop; SQLite is a parameter.
  Proved: `C44_bound_partial`.
  False: `C44_no_value_refuted`, `C44_no_info_refuted`, `C44_message_refuted`, `C44_unnamed_refuted`, `C44_long_refuted`.
  Proved for any SQLite (a parameter): if each named placeholder has a value (supplied, default, or zero value in an insert), exactly these are bound, or the statement is not run and the status gets an error; the error message is built with cee_str_mk (taken by value here, undefined as written: C44_message_refuted). Refuted: an entry without a value runs with NULL; no description, no check; unnamed parameters crash; a text over the limit runs with NULL.
* **C45** JSON object to SQL binding. *partial* (PropSqlJson.v, PropSqlUse.v)
  How: iteration over the object; specification of the data.
  Proved: `C45_data_partial`, `C45_error_partial`, `C45_info_partial`, `C45_exact`, `C45_exact_one`.
  False: `C45_usage_refuted`, `C45_null_refuted`, `C45_stale_refuted`, `C45_stops_refuted`, `C45_kinds_refuted`, `C45_data_refuted`, `C45_info_refuted`.
  Proved for all objects, columns and fresh data when the columns take the values, and with a non-integer for an integer column. Refuted: null for a column that is not null is dropped silently; data once null stays null; the first error ends the work; other kinds for text columns and blobs are undefined, ints are cut to 32 bits. cee_json_to_bind_info is right for one member only: with two, all entries are those of one member. C45_exact says for every object, columns and data what the members, taken in some order, do to the data and the lists, up to the first complaint, or that it is undefined.
* **C46** Renaming and merging map keys. *partial* (PropMap.v)
  How: map layer.
  Proved: `C46_rename`, `C46_rename_exact`, `C46_merge`, `C46_clone_lookup`.
  False: `C46_rename_null_value_refuted`, `C46_clone_order_refuted`.
  Rename loses an entry whose value is NULL (C46_rename_exact: what all histories give); clone does not keep the key order.
* **C47** Set union, clone and values. *partial* (PropSet.v)
  How: set layer.
  Proved: `C47_set_clone`, `C47_set_union`, `C47_union_exact`.
  False: `C47_union_size_refuted`.
  Elements of union and clone proved; the size of a union counts shared pointers twice (C47_union_exact: elements and size for all histories).
* **C48** Null containers are handled as documented. *partial* (PropMap.v, PropSet.v)
  How: NULL is None.
  Proved: `C48_map_null_partial`, `C48_set_null_partial`.
  False: `C48_map_null_refuted`, `C48_set_null_refuted`.
  size/iterate of a NULL map and iterate of a NULL set are safe; the other documented operations dereference NULL.
* **C49** Deleting a container deletes exactly what it owns. *partial* (PropHeapRc.v)
  How: heap layers.
  Proved: `C49_partial`, `C26_delete_partial`, `C49_set_crash`.
  False: `C49_set_refuted`, `C49_dict_refuted`.
  Proved for containers filled by lawful calls and, after every history, for containers with the no-operation policy. False for non-empty sets (NULL dereference) and for dictionaries with the no-operation policy (leak).
* **C50** Tuples give back their components. *partial* (PropProduct.v)
  How: heap of products.
  Proved: `C50_components_partial`, `C50_default_partial`, `C50_n_tuple_partial`, `C50_exact`.
  False: `C50_null_refuted`.
  Proved for all components that are library objects, or any pointers under the no-operation policy. A NULL component under the default policy crashes the constructor (C50_exact: every constructor, with the first component that is NULL or no object of the library). cee_quadruple_mk is declared but not defined in the repository.
* **C51** String views compare and parse their own text. *proved* (PropStrView.v)
  How: lists of bytes.
  Proved: `C51_compare`, `C51_index_of`, `C51_to_u64`.
* **C52** An int by its path. *partial* (PropJsonSelect.v)
  How: on top of C39.
  Proved: `C52_int_partial`, `C52_exact`.
  False: `C52_statement_refuted`.
  Integers outside the int range are cut to 32 bits and reported as success; C52_exact says what is given for all integers.
* **C53** Update or insert: the select decides. *partial* (PropSql.v)
  How: on top of C44.
  Proved: `C53_update_or_insert_partial`.
  False: `C53_select_error_refuted`.
  Proved: update on a row, insert on anything else, with all failures of these reported. Refuted: a failing select inserts.
* **C54** What the SQL operations report. *partial* (PropSql.v)
  How: on top of C44.
  Proved: `C54_insert_partial`, `C54_delete`, `C54_update_if_exists`, `C54_nothing_to_update`.
  False: `C54_rowid_refuted`, `C54_id_refuted`, `C54_update_refuted`.
  Proved for insert (the int that is the id modulo 2^32), delete and update_if_exists. Refuted: ids are cut to 32 bits, and given only with a status; update does not report a missing row; updated_rows counts all changes of the connection.
* **C55** Every prepared statement is finalized. *partial* (PropSql.v)
  How: number of open statements in the world.
  Proved: `C55_finalized_partial`, `C55_operations_partial`, `C55_exact`.
  False: `C55_leak_refuted`.
  Proved when every parameter has an entry. Refuted: the unbound parameter leaves the statement open. C55_exact counts the open statements after every call.
* **C56** Statements composed from an object. *proved* (PropSqlJson.v)
  How: induction over the entries.
  Proved: `C56_compose`.
  For all entries with non-empty column names.
* **C57** Select gives the rows. *partial* (PropSqlSelect.v)
  How: induction over the rows with values in memory (`holds`); SQLite is a parameter.
  Proved: `C57_rows_partial`, `C57_error_partial`, `C57_fails_later`.
  False: `C57_fails_later_refuted`, `C57_open_refuted`, `C57_array_status_refuted`.
  Proved for statements that finish (any rows, flags, repeated columns) and for those that fail before the first row with no array as status. Refuted: failing after a row reads columns without a row (C57_fails_later: for every such statement); the failed statement stays open; an error with an array as status aborts.
* **C58** Select one row. *partial* (PropSqlSelect.v)
  How: on top of C57 and C40.
  Proved: `C58_row_partial`, `C58_error_partial`, `C58_fails_later`.
  False: `C58_fails_later_refuted`.
  Proved for statements that finish, and for errors before the first row with an object or nothing as status. Refuted: failing after a row (C58_fails_later: for every such statement).
* **C59** Select one row or insert. *partial* (PropSqlColumn.v, PropSqlSelect.v)
  How: on top of C58 and C54.
  Proved: `C59_found_partial`, `C59_inserts_partial`, `C59_error_partial`, `C59_column_exact`.
  False: `C59_column_refuted`.
  Proved: found, inserted (reporting the int that is the id modulo 2^32), failing select. Refuted: a row with a column called error is taken for an error; C59_column_exact says what happens for every such row and every status.
* **C60** The next int. *partial* (PropSqlSelect.v)
  How: on top of C58 and C39.
  Proved: `C60_next_int_partial`, `C60_error`.
  False: `C60_int_refuted`, `C60_long_refuted`.
  Proved for all columns and clauses, for what the code does: the first 127 bytes of the query are run, and the value counts modulo 2^32. Refuted: larger values are cut or overflow, longer queries are cut.
* **C61** JSON arrays are sequences. *partial* (PropJsonArray.v)
  How: history refinement in memory, on top of the list layer.
  Proved: `C61_history_partial`, `C61_values`, `C61_iterate_partial`, `C61_insert_exact`.
  False: `C61_insert_refuted`, `C61_concat_refuted`, `C61_str_refuted`, `C61_iterate_refuted`.
  Proved for all histories whose insertions are in range and which do not append the array to itself, with cee_str_mk giving its string, and for iterating non-empty arrays. Refuted: inserting out of range, appending an array to itself, appending a string with cee_str_mk as it is, the result of iterating an empty array. C61_insert_exact says what inserting does for every index out of range.
* **C62** Operations on JSON objects share one protocol. *partial* (PropSqlGeneric.v, PropSqlReport.v)
  How: on top of C45 and C56; the operation is a parameter of the theorem.
  Proved: `C62_generic_partial`, `C62_exact`.
  False: `C62_error_refuted`, `C62_template_refuted`, `C62_str_refuted`, `C62_data_refuted`.
  Proved for any operation and objects whose values their columns take, with cee_str_mk giving its string. Refuted: with a wrong value the operation runs all the same; an update template with nothing to update dereferences NULL (for all inputs); the string constructor; entries without data. C62_exact says for every object, columns and data (also repeated columns, wrong values and data used before) with what data and statements the operation is run and what the status gets, or that it is undefined.
* **C63** Inserting, updating and selecting with a JSON object. *partial* (PropSqlGeneric.v)
  How: C62 applied to C53 and C54; the values by inversion of SqlSpec.supplied.
  Proved: `C63_insert_partial`, `C63_update_or_insert_partial`, `C63_update_if_exists_partial`, `C63_update_partial`.
  False: `C63_insert_refuted`, `C63_select_refuted`.
  Proved for values that the columns take, a status that is asked for (insert), and something to update. Refuted: an insert without a status never returns, whatever it is given; selecting with an object aborts for every input with a status.
* **C64** Typed access to JSON values. *partial* (PropJsonAccess.v)
  How: values in memory (`holds`).
  Proved: `C64_numbers_partial`, `C64_others`.
  False: `C64_int_refuted`, `C64_int_all_refuted`.
  Proved for all values, with the int that is the integer modulo 2^32; all integers outside the int range are cut to 32 bits when read as an int, with success reported.
* **C65** Converting a field to an integer. *partial* (PropJsonAccess.v)
  How: scanner against a grammar of integers; values in memory.
  Proved: `C65_text`, `C65_text_safe`, `C65_convert_partial`.
  False: `C65_string_refuted`, `C65_absent_refuted`, `C65_statement_refuted`.
  The scanner is exact for all texts whose number is in the 64-bit range (others are undefined in sscanf). Converting is proved for fields that are not strings; strings are never converted, as the type of the object is tested instead of that of the field, and a missing field is a NULL dereference: both for all inputs.
* **C66** The first error stays. *partial* (PropJsonAccess.v)
  How: induction over the messages, with the fields of the status.
  Proved: `C66_first_partial`.
  False: `C66_message_refuted`, `C66_kind_refuted`.
  Proved with a string constructor that gives its string. Refuted: with cee_str_mk as it is; something other than an object as status aborts.
* **C67** JSON values in files. *partial* (PropJsonFile.v)
  How: the parser finds the same in a longer block; completeness of the parser for any bytes behind the text; the printer (C33).
  Proved: `C67_load_partial`, `C67_load_sound`, `C67_buffer`, `C67_save`, `C67_round_trip_partial`.
  False: `C67_number_refuted`, `C67_number_all_refuted`, `C67_string_refuted`, `C67_string_all_refuted`, `C67_force_eof_refuted`, `C67_path_refuted`, `C67_round_trip_refuted`.
  Proved for all valid texts except a number that ends the file, and soundness for all files that do not end inside a token; saving for all values within the depth of the printer (C33). Refuted: the block has no NUL, so a number or an unterminated string at the end of the file is read past the block, for all such files; force_eof is ignored; a missing file ends the program.
* **C68** Merging JSON files. *partial* (PropJsonMergeAll.v)
  How: building values in memory, the merge of C40 and what it keeps (kinds, depth, size), the printer (C33).
  Proved: `C68_merge_all_partial`, `C68_effects`, `C68_failure`, `C68_reload_partial`.
  False: `C68_va_list_refuted`, `C68_statement_refuted`, `C68_not_an_object_refuted`, `C68_left_out_refuted`, `C68_left_out_all_refuted`, `C68_no_file_refuted`.
  Proved for any number of files, the first with an object, with a string constructor that gives its string: the text of the merged value is written, and loads again as that value. Failures leave all files as they are. Refuted: with cee_str_mk as it is; a first file without an object aborts; a later file that is not an object is left out silently but named, for all files; no file at all reads past the array of names.
* **C69** Inserting an array of objects as rows. *partial* (PropSqlInsert.v)
  How: the loop over the members collects the statement and the entries (induction over the visited members); one insert (C54); the loop over the rows with an invariant.
  Proved: `C69_insert_partial`, `C69_closed`.
  False: `C69_result_refuted`, `C69_empty_refuted`, `C69_columns_refuted`, `C69_other_refuted`, `C69_unquoted_refuted`, `C69_va_list_refuted`.
  Proved for any number of rows with fewer than 50 columns that are not null, with a string constructor that gives its string. Refuted: the result is 0 even if no row is stored, and was never set for an empty array; a row with 50 columns or more overruns an array, for all such rows; other values end the program; names are not quoted; with cee_str_mk as it is nothing is stored.
* **C70** Joining objects with a table. *partial* (PropSqlJoin.v)
  How: filling in the entries changes nothing but their values (induction over the entries); one select (C57) or merge (C43); the loop with an invariant: the objects share nothing, so what is done to one leaves the others.
  Proved: `C70_join_partial`, `C70_sent_exact`, `C70_stops`, `C70_object`.
  False: `C70_int64_refuted`, `C70_size_refuted`, `C70_null_refuted`, `C70_error_refuted`, `C70_kind_refuted`, `C70_va_list_refuted`.
  Proved for any number of objects with parameters of type int, or text without a size, that are not set to null; without a key neither a column nor a member may be called error; with a string constructor that gives its string. Refuted: parameters of type int64 keep what is in the entry; a size or null in the entry stays; the name error ends the join; a member of another type than the parameter is not noticed; with cee_str_mk as it is nothing is joined. C70_sent_exact says which rows are joined for entries of all types, sizes and nulls.
* **C71** Linked lists of the caller's objects. *proved* (PropQueue.v)
  How: lists in memory by a recursive predicate with what is before and behind (equivalent to the positions of the specification); splitting a list at an object; circular lists are turned so that the object is the first; frame for the other lists; induction over the operations.
  Proved: `C71_lists`, `C71_others`.
* **C72** Linear search. *partial* (PropLsearch.v)
  How: the scan by induction over the entries; writing a row leaves what does not overlap it; induction over the keys.
  Proved: `C72_pointers_partial`, `C72_find`.
  False: `C72_flat_refuted`, `C72_flat_all_refuted`, `C72_row_refuted`.
  Proved, for any number of searches, for tables that are arrays of pointers to rows that exist beforehand. Refuted for tables of elements, which the interface (that of POSIX) describes: the bytes of the elements are taken for a pointer (C72_flat_all_refuted: for all tables and keys).
* **C73** Selecting under a name. *partial* (PropSqlAs.v, PropSqlColumn.v)
  How: select and select1 into a fresh place (C57, C58), then appending to a member (C42) and merging (C40); the containers of the rows are new, so they are disjoint from the status.
  Proved: `C73_rows_partial`, `C73_rows_error_partial`, `C73_one_partial`, `C73_one_error`, `C73_rows_exact`, `C73_one_exact`.
  False: `C73_new_refuted`, `C73_kinds_refuted`, `C73_none_refuted`, `C73_column_refuted`, `C73_replaced_refuted`.
  Proved when the status is an object and the name is new or has an array or a text (all rows), and when there is a row without a column error (one row). Refuted: without a status object the rows are stored without the name; no row stores NULL as a member, which is then followed; a row with a column error, or an error, replaces the status object. C73_rows_exact and C73_one_exact say what happens for every status of any kind, without a row and with a column error. Texts that are made with cee_str_mk are given by value (C12).
* **C74** Settings as text. *partial* (PropDbmText.v)
  How: one invariant for what was written so far; induction over the items, for both ways of counting.
  Proved: `C74_paths_partial`, `C74_settings_partial`.
  False: `C74_overrun_refuted`, `C74_settings_overrun_refuted`.
  Proved for buffers in which all but the last item fit. Refuted for all others: what is left of the size wraps around, and bytes behind the buffer are written.
* **C75** The home directory in paths. *partial* (PropDbmText.v)
  How: strstr is the specification of occurrence; the copy of the text and its NUL.
  Proved: `C75_home_partial`, `C75_exact`.
  False: `C75_long_refuted`, `C75_inside_refuted`.
  Proved for paths that have $HOME at the start if at all and are shorter than 128 bytes afterwards; C75_exact says what happens for all paths. Refuted otherwise: longer ones are read and written behind the arrays; with $HOME elsewhere the first five bytes are lost.
* **C76** Making directories. *partial* (PropDbmDir.v)
  How: dirname removes the last name and keeps the start; making from left to right against recursion from the right, by induction from the end of the names; entries are only added.
  Proved: `C76_made_partial`, `C76_plain_partial`, `C76_descriptor_partial`, `C76_exact`.
  False: `C76_dots_refuted`, `C76_file_refuted`, `C76_descriptor_refuted`.
  Proved for paths that begin with directories that are there and go on with ordinary names. Refuted: . or .. behind a missing directory ends the program; a file at the path is taken for a directory, one above it ends the program; no descriptor is stored for a directory that is there. C76_exact says what happens for every path.
* **C77** Making and migrating databases. *partial* (PropDbmInit.v)
  How: a specification of the scripts that are run, in order; an invariant for the state between the steps (the database, all others, files, log, connections); the two cases of the directory.
  Proved: `C77_exact`, `C77_init_partial`.
  False: `C77_log_refuted`, `C77_script_refuted`, `C77_steps_refuted`, `C77_long_refuted`.
  Proved for names that fit into the arrays and a directory of ordinary names, with all rows of the log; exact for missing scripts (passed over) and failing ones (the program ends). Refuted: nothing is logged if the directory is not there; a missing create script makes an empty new database; one call migrates by one step only; names longer than 127 bytes are cut to the name of another file.
* **C78** Saving, opening and attaching databases. *partial* (PropDbmInit.v)
  How: the same lemmas about files; the rows of the log tell the command.
  Proved: `C78_backup_partial`, `C78_open_partial`, `C78_attach_partial`, `C78_backup_exact`, `C78_attach_exact`.
  False: `C78_backup_refuted`, `C78_long_refuted`.
  Proved for names that fit into the arrays, with the results that the code gives. Refuted: the result is true also if the command fails; the connection to the log stays open if there is no database; a command that is too long is cut and writes to another file; C78_backup_exact and C78_attach_exact say so for all commands and statements.
* **C79** The parser leaves nothing but the value in memory. *partial* (PropJsonMem.v)
  How: layouts: a value together with the addresses of all its objects; the parser on the heap simulates the parser on values, the invariant being a spine of unfinished containers whose frames lie in tuples on the stack; a grammar without repeated names.
  Proved: `C79_only_the_value_partial`, `C79_any_text`.
  False: `C79_repeated_name_refuted`, `C79_failure_refuted`.
  Proved for texts in which no object repeats a name; for any text the value, the error line and the objects that were there before are right, and what is lost are whole values. Refuted: a value replaced by a repeated name is never deleted; a parse that fails leaves the unfinished value and the tuples of its stack behind.
* **C80** Deleting a JSON value frees exactly its objects. *proved* (PropJsonMem.v)
  How: induction on layouts with the set of objects that are gone; the history by an invariant over the list of layouts.
  Proved: `C80_delete`, `C80_history`, `C80_all_deleted`.
  The number of nested calls a deletion may make is a parameter that must be at least five times the nesting.
* **C81** Editing JSON values leaves only their objects in memory. *partial* (PropJsonEdit.v)
  How: a part of a layout and what surrounds it; each operation turns the objects of the part and of the value put in into new ones and touches nothing else; the history by an invariant over layouts and left-over strings.
  Proved: `C81_history_partial`, `C81_all_deleted_partial`.
  False: `C81_remove_refuted`, `C81_rename_refuted`, `C81_str_mk_refuted`.
  Proved with a cee_str_mk that works (C12): everything is so except for strings, of which exactly one stays behind for each name removed or renamed. Refuted: cee_json_object_remove never deletes the string of the name; cee_json_object_rename never deletes the old string, or the new one if the old name is missing; with cee_str_mk as it is, setting a field is undefined. Programs that put one value into two places are not covered.
* **C82** Printing JSON values leaves nothing but the text in memory. *partial* (PropJsonWrite.v)
  How: a simulation: the objects of the printer are described by the stack of the printer of values, all others are as before except that keys are counted once more for each list of keys; pushing, popping and reading preserve this.
  Proved: `C82_history_partial`, `C82_snprint_partial`.
  False: `C82_deep_refuted`, `C82_str_refuted`.
  Proved with a cee_str_mk that works (C12), for values of at most 498 levels below the outermost one (127 for the readable text), except for the strings left over by removing and renaming (C81). Refuted: when the stack of 500 is full the printer stops and deletes only the stack, so the tuples and counters of all levels (at least 1000 objects for a value of 500 levels) stay behind. The second state of cee_json_dprintf is not covered.
* **C83** Closures are lexically scoped. *partial* (PropClosure.v)
  How: lexical scoping as a big-step relation over numbered frames and scopes that are paths of frames; simulation by the memory of maps, environments and closures, by induction on the derivation.
  Proved: `C83_lexical_partial`, `C83_nothing_partial`.
  False: `C83_nothing_refuted`.
  Proved for programs that do not bind a name to NULL. Refuted for those: the name is then looked up further out (as in C19); C83_nothing_partial says what they compute. A NULL map of variables is not covered here (C19).
* **C84** A JSON value may be in several places. *partial* (PropJsonShare.v)
  How: each value of the graph has a block of objects of its own; an operation changes one block and the counts of the values put in or taken out; a deletion follows the graph, and the values it reaches with count 0 are the least set closed under having no holder outside it.
  Proved: `C84_history_partial`, `C84_all_gone_partial`.
  False: `C84_again_refuted`, `C84_remove_refuted`, `C84_str_mk_refuted`.
  Proved for values in fewer than 65536 places (C25), with a cee_str_mk that works (C12), and for values not put under a name where they are already: everything is so except that one string stays behind for each name removed. Refuted: a value put again under the name it has is counted twice and never deleted; cee_json_object_remove never deletes the string of the name; with cee_str_mk as it is, setting a field is undefined. Values taken out of their last place have count 0 and stay until deleted, as in the code.
* **C85** Blocks of bytes. *partial* (PropBlock.v)
  How: the layout of both headers; arithmetic modulo 2^64; list lemmas.
  Proved: `C85_block_mk_partial`, `C85_block_mk_e_partial`.
  False: `C85_block_mk_refuted`, `C85_wrap_all_refuted`, `C85_string_as_block_refuted`, `C85_empty_refuted`.
  Proved for sizes below 2^64 - 80. Refuted: for all larger sizes the allocation is too small and is overrun; cee_block_size of any string, or of the block that cee_block_empty gives, reads before the object, because the header of a string is 8 bytes shorter.
* **C86** Strings made of given bytes. *partial* (PropBlock.v)
  How: the result as a list of cells; the invariant of C13 for the later operations.
  Proved: `C86_strn_partial`, `C86_strn_bytes`, `C86_end_exact`.
  False: `C86_strn_refuted`, `C86_end_refuted`, `C86_ncat_refuted`.
  Proved: if the bytes given end with a NUL, it is a string and any later operations work as in C13. The bytes are always the first ones of the result, but no NUL follows them, so strlen of the result is never defined otherwise (C86_strn_bytes, for all texts). Refuted: cee_str_end runs over the end for every array without a NUL; cee_str_ncat always gives NULL.
* **C87** Iterating over the rows of a statement. *partial* (PropSqlIter.v)
  How: induction over the rows, with the function as a relation from memory to memory.
  Proved: `C87_iter_partial`, `C87_calls`.
  False: `C87_fails_later_refuted`.
  Proved for statements that do not fail; C87_calls says what happens for all others that give a row. Refuted: when a statement fails after a row, the function is called once more although there is no row, and then the statement is run again.
* **C88** Programs with hash tables. *partial* (PropHtable.v)
  How: an invariant that relates every table to an association list and every pointer to a key, with the array it points into; the lemmas of C10 and C11 about one table.
  Proved: `C88_programs_partial`, `C88_all_released`.
  False: `C88_pointer_refuted`, `C88_moved_refuted`, `C88_create_again_refuted`, `C88_search_first_refuted`.
  Proved for programs that create a table only if it is not there, search it only if it is there, and use a pointer only as long as not more than max(6, 3/4 of the size asked for) keys were entered since. Refuted: the seventh key moves the entries and pointers dangle (C88_moved_refuted: after any growth); creating a table again loses the first one, and searching before creating dereferences NULL, for all programs.
* **C89** Setting up a connection. *partial* (PropConn.v)
  How: a reader of the statements, written separately; lemmas about snprintf into a buffer.
  Proved: `C89_statements_exact`, `C89_pragma_exact`, `C89_init_partial`, `C89_attach_partial`, `C89_detach_partial`, `C89_pragma_partial`, `C89_new_op`.
  False: `C89_init_refuted`, `C89_attach_cut_refuted`, `C89_attach_quote_refuted`, `C89_attach_memory_refuted`, `C89_detach_quote_refuted`, `C89_pragma_refuted`.
  Proved when everything fits and needs no quoting; copies of operations always. Refuted: a statement that does not fit is cut and run, so that a database is attached under another name; quotes in names are not doubled; nothing can be attached to a database in memory (strrchr gives NULL); a pragma beyond int is cut and errors look like 0. C89_statements_exact and C89_pragma_exact say what happens for all names and sizes; the refutations of cut statements and of databases in memory are for all names.

## Findings

What the refutations and the hypotheses of the partial theorems come from.

**Strings.** `cee_str_mkv` passes its va_list to vsnprintf twice: every `cee_str_mk` with a
directive is undefined, and with it `cee_json_object_set*`, `cee_json_object_rename`,
`cee_json_set_error`, `cee_json_str_mkf`, printing of blobs, `cee_json_to_bind_info` and more
(C12, C33, C38, C42, C44).  `cee_str_add` under realloc reads the freed block (C13).  Trimming leaves one
character (C14).  `str_replace_all` writes one byte too many in some cases (C15); `str_replace_all_ext` can divide by zero (C16).
`sv_chop_by_sv` keeps a delimiter at the end and underflows (C17).

**Containers.** The size of a set counts re-added pointers twice (C03, C47).  Renaming a map
entry whose value is NULL loses it; clone changes the order (C46).  NULL maps and sets crash (C48).  `cee_list_insert` out of range leaves holes
or writes outside (C07).  `cee_list_iterate` on an empty list returns an indeterminate value, merging a list into itself never ends (C08).
`cee_quadruple_mk` is declared (cee.h:365) and not defined.

**Memory.** A resized block keeps its old trace_next, after which collection loops or
touches freed memory (C21).  Collection frees closures and the key lists of maps although they are reachable (C22),
leaves new garbage every second time (C23), and does not end on cycles (C24).  in_degree wraps at 65536;
re-adding a value to a map, sets and environments count wrongly (C25, C27).  Deleting a non-empty set crashes (C49).

**JSON text.** The parser accepts trailing commas, superfluous zeros before a fraction, invalid
UTF-8 in strings without escapes, a trailing unpaired surrogate, a comment with a NUL (C29); integers saturate (C37); strings end at U+0000 (C30); lines count
from 0 (C31); it reads beyond buf+len when there is no NUL (C32).  Compact printing stops at 500 levels though 511 are parsed; the readable
format counts tabs in a char, which overflows at 128 levels, and writes before its buffer at 130; infinite doubles print as `inf`; strings
of 4 GiB are cut; the size argument is ignored (C33, C34).  `cee_json_escape_string` advances by 4 for the 6 bytes of `\u00XX` and ignores the size of dest (C43).

**JSON values.** Selectors: a selector ending in `.`, `[` or `:` is read past its end; `*` for a name copies an
uninitialised buffer; `:n` is int64 only; an index of 2^31 or more is undefined (C39).  `select_as_int` cuts to 32 bits (C52).
`cee_json_object_append` crashes on object fields and does not make an array for absent ones (C42).  Merging a value with itself or with shared parts
diverges or changes src (C40).  Inserting into an array out of range writes outside or leaves a gap, appending an array to itself never ends, iterating an
empty one returns an indeterminate value (C61).  `cee_json_object_convert_to_i64` never converts a string and crashes on a missing key (C65).

**SQL.** A named parameter without data is bound to NULL silently; without a description nothing is checked; the
results of sqlite3_bind_* are ignored (C44).  The error path of an unbound parameter does not finalize the statement (C55).
update_or_insert inserts when the select failed (C53).  update never reports a missing row, row ids are cut to int (C54).
`bind_data_from_json` drops null for not-null columns, keeps stale data, stops at the first error, and always returns 0; `cee_json_to_bind_info`
fills all entries from the first key (C45).

**Select.** `cee_sqlite3_select_iter` goes on when a later step fails: it reads columns without a row and runs the statement again; on an error at the
start the statement is not finalized, and with an array as status the library aborts (C57).  Texts end at an embedded NUL (C57).
`select1_or_insert` and `select1_as` take a row with a column called `error` for an error (C59); `select1_as` stores NULL when there is no row; `select_as`
stores the bare array when the status is NULL.  `next_int` is limited to int and 127 bytes of query, and overflows (C60).  `cee_sqlite3_insert_json_array` returns 0 whatever happens, overruns its 50 entries for a row with 50 columns or more, and does not quote names (C69); printing a JSON value of 499 levels or more leaves the objects of the printer behind (C82); an attach statement that does not fit its buffer is cut and run (C89); a pointer to an entry of a hash table dangles when another key is entered (C88); cee_str_strn gives a string without a terminator (C86); the size of a string used as a block is read from before the object (C85); putting a JSON value again under the name it has in an object leaves it behind for ever (C84); removing or renaming a name of a JSON object leaves a string behind (C81); a value replaced by a repeated name, and everything built by a parse that fails, is never deleted (C79); `cee_dbm_db_init` logs nothing the first time, when the directory is missing, and makes an empty database if its create script is missing (C77); `cee_dbm_db_backup` says true when the command failed and leaks the connection to the log when the database is missing (C78); printing settings into a short buffer writes behind it (C74); a home directory that is too long for a path overruns two arrays, and $HOME inside a path drops its first five bytes (C75); `mkdir_p` takes a file for a directory and ends the program for `a/.` (C76); `cee_sqlite3_select_as` drops the name when there is no status object, `cee_sqlite3_select1_as` follows NULL when there is no row and drops the status object on an error (C73); `musl_lsearch` and `musl_lfind` take a table of elements for a table of pointers (C72); `join_one` sets only the int of an entry, so parameters of type int64 are never set; a stale size reads past the end of a text; the name error ends a join (C70); `generic_opcode`
runs the operation although a value does not fit its column, and prints a NULL pointer with %s when there is nothing to update (C62); `cee_sqlite3_insert_op` crashes without a
status and `cee_sqlite3_select_op` always aborts with one (C63); `cee_str_strn` does not terminate its string.

**Files.** `cee_json_load_from_fileno` parses a block without a terminating NUL: a number or an unterminated string at the end of the file is read past the block, so
an integer that was saved alone cannot be loaded; it ignores `force_eof`; `cee_json_load_from_file_path` ends the program if there is no such file (C67). `cee_json_merge_all` aborts if the first file has no object, leaves out further
files that have none but lists their names, and reads a name even if there is none (C68).

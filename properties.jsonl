{"id": "C01", "title": "Map is a finite map under every history", "statement": "After any sequence of cee_map_add / cee_map_remove calls on a map, cee_map_find(m,k) returns the value most recently added under a key equal to k (by the map's comparison function) if that key has not been removed since, and NULL otherwise; cee_map_add returns the value it replaced (NULL if none), cee_map_remove returns the value it removed (NULL if none), and cee_map_size is the number of distinct keys present.", "quantifier": "all comparison functions that are total orders up to equivalence, all keys and values, all finite sequences of add/remove/find/size calls", "why_tests_cant": "The underlying structure is a self-balancing tree with several rotation and deletion cases; a finite test suite exercises only some of the unboundedly many shapes a tree can take.", "anchors": ["map.c: cee_map_add, cee_map_find, cee_map_remove, cee_map_size", "musl-tsearch.c: musl_tsearch, musl_tfind, musl_tdelete"]}
{"id": "C02", "title": "Map remembers insertion order of keys", "statement": "cee_map_insertion_ordered_keys(m) lists every key currently present exactly once, in the order in which the present binding's key was first added since it was last removed; overwriting the value of a present key does not move it, and removing a key followed by adding it again moves it to the end.", "quantifier": "all comparison functions that are total orders up to equivalence and all finite sequences of add/remove/rename calls", "why_tests_cant": "The order list and the tree are two structures that must stay consistent through every history; tests look at a handful of histories.", "anchors": ["map.c: cee_map_add_e, cee_map_ordered_key_delete, cee_map_remove, cee_map_insertion_ordered_keys"]}
{"id": "C03", "title": "Set is a finite set under every history", "statement": "After any sequence of cee_set_add / cee_set_remove calls, cee_set_find(s,x) returns the stored element equal to x if one was added and not removed since, NULL otherwise; cee_set_size is the number of elements present and cee_set_empty holds exactly when it is 0; adding an element equal to one already present changes nothing.", "quantifier": "all comparison functions that are total orders up to equivalence, all elements (including re-adding the very same pointer), all finite sequences of add/remove calls", "why_tests_cant": "Size bookkeeping is separate from the tree; whether it stays right depends on histories (e.g. re-adding the same pointer) that no finite suite enumerates.", "anchors": ["set.c: cee_set_add, cee_set_find, cee_set_remove, cee_set_size, cee_set_empty"]}
{"id": "C04", "title": "Ordered containers stay balanced, so their fixed-size path buffer never overflows", "statement": "After any sequence of insertions and deletions the search tree behind set and map is sorted, the two subtrees of every node differ in height by at most one and each recorded height is the true height; consequently a tree with n elements is at most 1.45*log2(n+2) deep and the fixed 96-entry path array used during insertion and deletion is never indexed out of bounds for any number of elements addressable in 64 bits.", "quantifier": "all comparison functions, all sequences of insertions and deletions, all tree sizes up to 2^64", "why_tests_cant": "A buffer overflow would need a pathological tree with billions of elements; balance must be established for all shapes by induction.", "anchors": ["musl-tsearch.c: MAXH, rot, balance, musl_tsearch, musl_tdelete"]}
{"id": "C05", "title": "Walking a set or map visits every element exactly once", "statement": "cee_set_values, cee_map_keys, cee_map_values, cee_set_iterate and cee_map_iterate visit each present element exactly once, in one and the same order for a given container; iteration stops at, and returns, the first non-zero result of the callback and returns 0 if there is none (or the container is empty).", "quantifier": "all container contents reachable by any history and all callbacks", "why_tests_cant": "The walker decides whether to descend from a cached height; a single stale height would silently skip a whole subtree for some rare shape.", "anchors": ["musl-tsearch.c: walk, musl_twalk", "set.c: cee_set_values, cee_set_iterate", "map.c: cee_map_keys, cee_map_values, cee_map_iterate"]}
{"id": "C06", "title": "List is a sequence under append, insert and remove", "statement": "cee_list_append adds at the end, cee_list_insert at index i (0 <= i <= size) puts the element at i and shifts the rest, cee_list_remove at an index i < size removes exactly that element, preserving the order of all others, and returns true; cee_list_size is the length; growth of the backing array is unobservable and every access is inside the allocated array.", "quantifier": "all initial capacities, all elements and all finite sequences of append/insert/remove calls with in-range indices", "why_tests_cant": "Shifting loops and capacity growth have boundary cases that depend on the exact relation of size, capacity and index.", "anchors": ["list.c: cee_list_mk_e, cee_list_append, cee_list_insert, cee_list_remove, cee_list_size, cee_list_capacity"]}
{"id": "C07", "title": "Out-of-range list indices are harmless", "statement": "cee_list_remove with an index that is negative or >= size returns false and leaves the list unchanged; cee_list_insert with an index that is negative or > size leaves the list a well-formed sequence.", "quantifier": "all lists and all int indices", "why_tests_cant": "Signed/unsigned comparison makes the behaviour depend on the whole int range.", "anchors": ["list.c: cee_list_insert, cee_list_remove"]}
{"id": "C08", "title": "List iteration and merging", "statement": "cee_list_iterate calls the callback on the elements in order with their indices, stops at and returns the first non-zero result, and returns 0 if there is none, including for the empty list; cee_list_merge(dest,src) terminates and leaves dest followed by the elements src had, for any two lists, including dest == src.", "quantifier": "all lists, all callbacks, all (also aliased) pairs of lists", "why_tests_cant": "Emptiness and aliasing are corner cases, and non-termination is not observable by a test that finishes.", "anchors": ["list.c: cee_list_iterate, _add_v, cee_list_merge"]}
{"id": "C09", "title": "Stack is a bounded LIFO", "statement": "cee_stack_push returns 1 and puts the element on top unless the stack holds `size` elements, in which case it returns 0 and changes nothing; cee_stack_pop returns and removes the top, NULL on empty; cee_stack_top(v,n) returns the n-th element from the top or NULL when there is none; empty/full/size report the truth.", "quantifier": "all stack sizes, all elements and all finite sequences of push/pop/top calls", "why_tests_cant": "The top index is an unsigned integer that wraps below zero; correctness of the wrapped comparisons must hold for every state.", "anchors": ["stack.c: cee_stack_mk_e, cee_stack_push, cee_stack_pop, cee_stack_top, cee_stack_empty, cee_stack_full, cee_stack_size"]}
{"id": "C10", "title": "Dictionary lookup", "statement": "After any sequence of cee_dict_add calls, cee_dict_find(d,k) returns the value of the first add whose key has the same bytes as k, and NULL if there was none; no entry is ever lost by table growth.", "quantifier": "all initial sizes, all key strings (any hash collisions), all finite sequences of add calls", "why_tests_cant": "Collisions, probing and growth interact; adversarial keys giving the same hash sequence are not in any test suite.", "anchors": ["dict.c: cee_dict_mk_e, cee_dict_add, cee_dict_find", "musl-hsearch.c: keyhash, resize, lookup, musl_hsearch_r"]}
{"id": "C11", "title": "Dictionary probing always terminates", "statement": "Every dictionary lookup and insertion terminates: the probe sequence visits every slot of the table and the table always has a free slot.", "quantifier": "all table sizes, all table contents reachable by any history, all keys", "why_tests_cant": "Non-termination would show up only for particular table fillings; the argument is number-theoretic (triangular numbers modulo a power of two) and an invariant on the load factor.", "anchors": ["musl-hsearch.c: lookup, resize, musl_hcreate_r, musl_hsearch_r"]}
{"id": "C12", "title": "Creating a string by format", "statement": "cee_str_mk(st, fmt, args...) yields the NUL-terminated text that printf would produce for fmt and args; cee_str_mk_e(st, n, fmt, args...) additionally provides room for at least n bytes.", "quantifier": "all formats and arguments, all n", "why_tests_cant": "Whether the variadic arguments are still valid on the second formatting pass depends on the platform; a test passing on one platform settles nothing.", "anchors": ["str.c: cee_str_mkv, cee_str_mk, cee_str_mk_e"]}
{"id": "C13", "title": "Growing a string never corrupts it", "statement": "cee_str_add appends one character, cee_str_catf appends formatted text, cee_str_replace substitutes the whole content; afterwards the content is exactly the expected NUL-terminated text and no byte outside the allocated block is read or written, whether or not the block had to grow.", "quantifier": "all strings, all appended texts, all sequences of such calls, both resize methods", "why_tests_cant": "Off-by-one errors in the growth conditions show only when the length hits the capacity exactly.", "anchors": ["str.c: cee_str_add, cee_str_catf, cee_str_replace", "cee-resize.h: resize"]}
{"id": "C14", "title": "Trimming strings", "statement": "cee_str_rtrim removes all trailing white space and nothing else; cee_str_ltrim removes all leading white space and nothing else.", "quantifier": "all strings", "why_tests_cant": "Boundary inputs (all blanks, a single blank) are easily missed by tests.", "anchors": ["str.c: cee_str_rtrim, cee_str_ltrim"]}
{"id": "C15", "title": "Replacing substrings", "statement": "str_replace_at_offset replaces exactly the given window; str_replace_all replaces every non-overlapping occurrence of the old substring scanning left to right, and writes only inside the buffer it allocates.", "quantifier": "all strings, needles and replacements", "why_tests_cant": "The buffer size is estimated by a ratio; whether the estimate suffices depends on all lengths and the number of matches.", "anchors": ["str.c: str_replace_at_offset, str_replace_all"]}
{"id": "C16", "title": "Replacing several substrings at once", "statement": "str_replace_all_ext terminates, substitutes at each position the first matching pair and writes only inside the buffer it allocates.", "quantifier": "all strings and all lists of (old,new) pairs", "why_tests_cant": "The buffer estimate uses the minimum and maximum needle lengths; it is a universally quantified inequality.", "anchors": ["str.c: str_replace_all_ext"]}
{"id": "C17", "title": "String views only look inside the viewed text", "statement": "Every string-view operation returns views inside the view it was given; trimming, chopping left/right/by delimiter/by predicate partition the view: the pieces (plus the consumed delimiter) concatenate to the original.", "quantifier": "all views, delimiters and predicates", "why_tests_cant": "Unsigned length arithmetic can wrap for particular length combinations only.", "anchors": ["strview.c: sv_trim_left, sv_trim_right, sv_trim, sv_chop_left, sv_chop_right, sv_chop_by_delim, sv_chop_by_sv, sv_try_chop_by_delim, sv_take_left_while, sv_chop_left_while, sv_index_of, sv_starts_with, sv_ends_with, sv_eq, sv_eq_ignorecase, sv_to_u64, sv_chop_u64"]}
{"id": "C18", "title": "Boxed primitives round-trip", "statement": "cee_boxed_to_T(cee_boxed_from_T(x)) = x for each primitive type T; reading a box as a different type stops the program instead of reinterpreting bits; the printed form of an integer box denotes its value.", "quantifier": "all values of all primitive types", "why_tests_cant": "The value space is 2^64 per type; only boundary samples can be tested.", "anchors": ["boxed.c: cee_boxed_from_*, cee_boxed_to_*, cee_boxed_snprint"]}
{"id": "C19", "title": "Environment lookup is lexical scoping", "statement": "cee_env_find returns the value of the name in the innermost enclosing environment that binds it, and NULL when none does.", "quantifier": "all chains of environments of any depth and contents, all names", "why_tests_cant": "Chains are of unbounded depth; shadowing and empty frames combine freely.", "anchors": ["env.c: cee_env_mk, cee_env_find"]}
{"id": "C20", "title": "Deleting a state releases every block exactly once", "statement": "cee_del(state) frees every memory block allocated under the state and not already freed, each exactly once, and touches no freed block, no matter what was allocated, deleted and resized before and how the objects refer to each other.", "quantifier": "all histories of allocation, deletion and resizing under one state", "why_tests_cant": "Double frees and leaks depend on the allocation history; the space of histories is infinite.", "anchors": ["state.c: S(trace), cee_state_mk", "cee-resize.h: chain, de_chain, resize", "cee-common.c: cee_del"]}
{"id": "C21", "title": "The allocation chain stays well formed", "statement": "At every moment the blocks of a state form one doubly linked list from the state's own block to its tail containing every live block exactly once, so that collection walks it to the end and terminates.", "quantifier": "all histories of allocation, deletion and resizing (both resize methods)", "why_tests_cant": "A stale link creates a cycle only after particular histories (e.g. growing a string that is not the newest block).", "anchors": ["cee-resize.h: chain, de_chain, resize", "state.c: S(sweep)"]}
{"id": "C22", "title": "Collection never frees what is reachable from the roots", "statement": "cee_state_gc frees no block reachable, through the containers' elements, from a registered root or context.", "quantifier": "all object graphs, all root sets, all sequences of collections", "why_tests_cant": "Safety must hold for every object graph; missing tracing of one internal pointer shows only when that pointer is used after a collection.", "anchors": ["state.c: cee_state_gc, S(trace), S(sweep)", "list.c/map.c/set.c/tuple.c/closure.c/env.c: S(trace)"]}
{"id": "C23", "title": "Collection reclaims all garbage", "statement": "After cee_state_gc no block unreachable from the roots remains allocated.", "quantifier": "all object graphs and all sequences of allocations and collections", "why_tests_cant": "Marks alternate between collections, so the behaviour depends on the parity of past collections.", "anchors": ["state.c: cee_state_gc, S(sweep)"]}
{"id": "C24", "title": "Collection terminates on every object graph", "statement": "cee_state_gc terminates for every object graph, including graphs with sharing and cycles.", "quantifier": "all object graphs", "why_tests_cant": "Termination cannot be established by running.", "anchors": ["cee-common.c: cee_trace", "list.c: S(trace)", "state.c: cee_state_gc"]}
{"id": "C25", "title": "Reference counts are exact", "statement": "The in-degree of an object equals the number of containers holding it under a reference-counting policy, cee_del of one holder leaves an object shared with other holders allocated, and deletes an object once its last holder is deleted.", "quantifier": "all object graphs without cycles, all histories of container creation, insertion, removal and deletion, any number of holders", "why_tests_cant": "Counter overflow and unbalanced increments are only visible after long or unusual histories.", "anchors": ["cee-common.c: incr_rc, decr_rc, cee_del_ref, cee_incr_indegree, cee_decr_indegree, cee_del_e", "list.c, map.c, set.c, tuple.c, env.c"]}
{"id": "C26", "title": "The no-operation deletion policy leaves elements alone", "statement": "A container created with CEE_DP_NOOP never changes the bookkeeping of, and never frees, its elements.", "quantifier": "all containers with the no-op policy, all histories", "why_tests_cant": "Needs all histories, including deletion of the container, for each kind of container.", "anchors": ["cee.h: enum cee_del_policy", "cee-common.c: cee_incr_indegree, cee_del_e", "map.c: cee_map_mk_e, cee_map_add_e"]}
{"id": "C27", "title": "Exclusive ownership", "statement": "An object placed in a container with CEE_DP_DEL_RC after being placed in one with CEE_DP_DEL is freed exactly when the owning (DEL) container is deleted; a retained object is not freed by reference-count deletion until it is released.", "quantifier": "all histories over a retained object", "why_tests_cant": "Interleavings of retain, release and reference-count changes are unbounded.", "anchors": ["cee-common.c: retain, release, cee_del_ref, cee_del_e"]}
{"id": "C28", "title": "JSON print/parse round trip", "statement": "Parsing the text printed for a JSON value gives back an equal value (same structure, keys in the same order, same strings and integers), in both compact and readable format.", "quantifier": "all JSON values built from null, booleans, 64-bit signed integers, NUL-free valid UTF-8 strings, arrays and objects with distinct keys, of bounded nesting depth as supported by printer and parser", "why_tests_cant": "Values are unboundedly large trees; printing and parsing are two independent state machines.", "anchors": ["cee-json/snprint.c: cee_json_snprint, str_append, delimiter, pad", "cee-json/parser.c: cee_json_parsex", "cee-json/tokenizer.c"]}
{"id": "C29", "title": "The parser accepts only JSON", "statement": "If cee_json_parsex reports success with force_eof then the whole input is a JSON text according to RFC 8259 and the result is the value it denotes.", "quantifier": "all input byte strings", "why_tests_cant": "The language is infinite; a conformance corpus covers a few hundred strings.", "anchors": ["cee-json/parser.c: cee_json_parsex", "cee-json/tokenizer.c: cee_json_next_token, parse_string, parse_number"]}
{"id": "C30", "title": "The parser accepts all JSON", "statement": "Every RFC 8259 JSON text with valid UTF-8 strings and nesting depth below the documented limit is accepted and yields the value it denotes.", "quantifier": "all RFC 8259 texts below the nesting limit", "why_tests_cant": "Same: infinite language.", "anchors": ["cee-json/parser.c: cee_json_parsex", "cee-json/tokenizer.c"]}
{"id": "C31", "title": "Parsing always terminates with a value or an error and a stack that never overflows", "statement": "cee_json_parsex terminates on every input; it returns true with a value or false with an error line between 1 and 1 plus the number of line breaks in the input; nesting beyond the limit is an error, never an overflow.", "quantifier": "all input byte strings", "why_tests_cant": "Termination and bounds over all inputs.", "anchors": ["cee-json/parser.c: cee_json_parsex, cee_json_max_depth"]}
{"id": "C32", "title": "The parser never reads outside the given buffer", "statement": "cee_json_parsex(st, buf, len, ...) reads no byte at or beyond buf+len.", "quantifier": "all buffers and lengths", "why_tests_cant": "Over-reads are invisible unless the byte after the buffer matters.", "anchors": ["cee-json/tokenizer.c: check, parse_string, parse_number, cee_json_next_token", "cee-json/value.c: cee_json_load_from_fileno"]}
{"id": "C33", "title": "Measured and written print length agree", "statement": "cee_json_snprint with a NULL buffer returns exactly the number of bytes that the same call with a buffer writes (not counting the final NUL), so cee_json_asprint's buffer is always large enough.", "quantifier": "all JSON values, both formats", "why_tests_cant": "The length is computed by duplicated branch-specific arithmetic; agreement must hold in every combination of branches.", "anchors": ["cee-json/snprint.c: cee_json_snprint, str_append, pad, delimiter, cee_json_asprint"]}
{"id": "C34", "title": "Printing is complete at every depth", "statement": "cee_json_snprint prints every value the parser can produce completely, i.e. the text is well-formed JSON whose nesting equals that of the value.", "quantifier": "all JSON values that some input parses to", "why_tests_cant": "The printer's fixed stack and the char-sized indentation counter matter only at depths tests never reach.", "anchors": ["cee-json/snprint.c: cee_json_snprint, push, pad"]}
{"id": "C35", "title": "UTF-8 validation is exact", "statement": "A byte sequence passes the validator iff it is well-formed UTF-8 (RFC 3629: no overlong forms, no surrogates, at most U+10FFFF), and encoding a code point then decoding it is the identity.", "quantifier": "all byte sequences and all code points", "why_tests_cant": "Exactness over all byte sequences; tests sample.", "anchors": ["cee-json/tokenizer.c: utf_valid, utf_trail_length, utf_width, next, utf8_validate, utf8_encode"]}
{"id": "C36", "title": "String unescaping is correct and stays in its buffer", "statement": "Unescaping writes at most as many bytes as the escaped text has, leaves room for the terminator, decodes every escape of RFC 8259 including surrogate pairs, and rejects unpaired surrogates.", "quantifier": "all escaped byte strings", "why_tests_cant": "The buffer is sized by the input length; the inequality must hold for every mixture of escapes.", "anchors": ["cee-json/tokenizer.c: json_string_unescape, read_4_digits, decode_surrogate_pair, append, parse_string"]}
{"id": "C37", "title": "Integer literals are exact", "statement": "An integer literal in the input yields a JSON integer with exactly that value; literals that do not fit 64 bits are not silently changed; leading zeros are rejected.", "quantifier": "all digit strings", "why_tests_cant": "All 2^64 values and all longer strings.", "anchors": ["cee-json/tokenizer.c: parse_number"]}
{"id": "C38", "title": "Object field update and lookup", "statement": "cee_json_object_set_* then cee_json_object_get returns the new value; other fields are unchanged; remove makes the field absent; rename moves the value to the new name.", "quantifier": "all objects, keys and values, all histories", "why_tests_cant": "Histories over tree-backed objects.", "anchors": ["cee-json/value.c: cee_json_object_set*, cee_json_object_get, cee_json_object_remove, cee_json_object_rename"]}
{"id": "C39", "title": "Selector paths", "statement": "cee_json_select(j, path) returns the value reached by following the .name and [index] steps of the path, NULL if a step does not exist or a final :type does not match, and reads only the selector text; `*` takes the name or index from the argument list.", "quantifier": "all JSON values and all selector strings", "why_tests_cant": "Selector strings are arbitrary text; malformed ones must not read out of bounds.", "anchors": ["cee-json/value.c: cee_json_select"]}
{"id": "C40", "title": "Merging JSON values", "statement": "cee_json_merge(dest,src) makes dest contain src: objects are merged key by key recursively with src winning on scalars, arrays are concatenated, src is unchanged, and the call terminates, also when dest and src share structure.", "quantifier": "all pairs of JSON values", "why_tests_cant": "Recursive over arbitrary trees and aliasing.", "anchors": ["cee-json/cee_json_merge.c: cee_json_merge, merge_json_value", "map.c: cee_map_merge", "list.c: cee_list_merge"]}
{"id": "C41", "title": "Deep search", "statement": "cee_json_has(key, j, &found) answers whether some object nested anywhere in j has the key, and if so yields a value stored under that key.", "quantifier": "all JSON values and keys", "why_tests_cant": "Recursive search over arbitrary trees.", "anchors": ["cee-json/value.c: cee_json_has"]}
{"id": "C42", "title": "Appending to an object field", "statement": "cee_json_object_append(j,key,v) turns the field into an array holding the previous value(s) followed by v, for every kind of previous value.", "quantifier": "all objects and all kinds of previous value", "why_tests_cant": "Every type combination on every object.", "anchors": ["cee-json/value.c: cee_json_object_append, cee_json_listify"]}
{"id": "C43", "title": "Escaping a string for JSON", "statement": "cee_json_escape_string(src, dest) writes a JSON string body that unescapes to src.", "quantifier": "all byte strings", "why_tests_cant": "Interaction of consecutive escapes.", "anchors": ["cee-json/value.c: cee_json_escape_string", "cee-json/snprint.c: str_append"]}
{"id": "C44", "title": "SQL parameters: all bound with the right value, or nothing runs", "statement": "cee_sqlite3_bind_run_sql runs a statement only when every placeholder named by the binding description was bound, each to the value supplied for that name (supplied data before default), and otherwise reports an error without executing it.", "quantifier": "all binding descriptions, data arrays and statements", "why_tests_cant": "The product of types, defaults, nullability and placeholder subsets is too big to enumerate, and needs a database oracle.", "anchors": ["sqlite3/cee-sqlite3.c: cee_sqlite3_bind_run_sql"]}
{"id": "C45", "title": "JSON object to SQL binding", "statement": "cee_json_to_bind_info maps each key of the JSON object to its own binding entry with the corresponding value; binding data from JSON uses every declared key exactly once and reports the others as unused.", "quantifier": "all JSON objects", "why_tests_cant": "The loop is correct for one-key objects, which is what tests use.", "anchors": ["sqlite3/cee-sqlite3.c: cee_json_to_bind_info, f, populate_usage, cee_sqlite3_bind_data_from_json"]}
{"id": "C46", "title": "Renaming and merging map keys", "statement": "cee_map_rename(m, old, new) gives new the value old had, removes old and leaves every other key alone, returning whether old was present; cee_map_merge(dest,src) makes every key of src present in dest with the merged value and leaves src unchanged; cee_map_clone yields an equal, independent map.", "quantifier": "all maps, keys and merge functions", "why_tests_cant": "Quantifies over all tree shapes and merge functions.", "anchors": ["map.c: cee_map_rename, cee_map_merge, cee_map_clone"]}
{"id": "C47", "title": "Set union, clone and values", "statement": "The union of two sets contains exactly the elements present in either; clone equals the original; neither operation changes its operands.", "quantifier": "all pairs of sets with the same comparison", "why_tests_cant": "All shapes of both trees.", "anchors": ["set.c: cee_set_union_set, cee_set_clone, cee_set_values"]}
{"id": "C48", "title": "Null containers are handled as documented", "statement": "As documented in the header, size/empty/find/remove on a null set or map report an empty container.", "quantifier": "all documented operations taking a possibly null container", "why_tests_cant": "It is a statement about every documented entry point.", "anchors": ["cee.h", "set.c: cee_set_size, cee_set_empty, cee_set_find, cee_set_remove", "map.c: cee_map_find, cee_map_remove"]}
{"id": "C49", "title": "Deleting a container deletes exactly what it owns", "statement": "cee_del on a list, stack, set, map, dictionary, tuple or tagged value frees the container's own memory and, according to its deletion policies, its elements, without touching unowned memory.", "quantifier": "all container kinds, contents and policies", "why_tests_cant": "Contents are unbounded and policies combine.", "anchors": ["list.c, stack.c, set.c, map.c, dict.c, tuple.c, triple.c, quadruple.c, n_tuple.c, tagged.c: S(trace)"]}
{"id": "C50", "title": "Tuples give back their components", "statement": "The i-th component of a tuple, triple, quadruple or n-tuple is the i-th argument it was made from; more than 16 components stop the program.", "quantifier": "all component lists", "why_tests_cant": "All lengths and values.", "anchors": ["tuple.c, triple.c, quadruple.c, n_tuple.c"]}
{"id": "C51", "title": "String views compare and parse their own text", "statement": "sv_eq, sv_eq_ignorecase, sv_starts_with and sv_ends_with answer exactly the textual question (equality, equality up to ASCII case, prefix, suffix); sv_index_of returns the first position of a byte or reports its absence; sv_to_u64 and sv_chop_u64 return the number written by the leading decimal digits (exact below 2^64), the latter leaving the remainder in the view. None reads outside the views.", "quantifier": "all texts and views", "why_tests_cant": "All lengths, contents and positions.", "anchors": ["strview.c: sv_eq, sv_eq_ignorecase, sv_starts_with, sv_ends_with, sv_index_of, sv_to_u64, sv_chop_u64"]}
{"id": "C52", "title": "An int by its path", "statement": "cee_json_select_as_int(o, &x, path) returns 0 and stores the integer that the path leads to, and otherwise (nothing there, not an integer, or not an int) returns a value different from 0 and leaves x alone.", "quantifier": "all JSON values and paths", "why_tests_cant": "All paths, values and integers, in particular those of more than 32 bits.", "anchors": ["cee-json/value.c: cee_json_select_as_int, cee_json_to_intx"]}
{"id": "C53", "title": "Update or insert: the select decides", "statement": "cee_sqlite3_update_or_insert runs the update statement when the select statement finds a row and the insert statement when it finds none, never both; when the select statement fails, nothing is changed and an error is reported. Everything that fails is reported in the status.", "quantifier": "all databases, statements, binding descriptions and data", "why_tests_cant": "The states of a database cannot be enumerated, and the failing select needs a fault in SQLite.", "anchors": ["sqlite3/cee-sqlite3.c: cee_sqlite3_update_or_insert"]}
{"id": "C54", "title": "What the SQL operations report", "statement": "cee_sqlite3_insert reports the id of the new row, cee_sqlite3_delete the number of rows deleted, cee_sqlite3_update and cee_sqlite3_update_if_exists the number of rows updated; cee_sqlite3_update reports when there is no such row. Whatever fails is reported as an error in the status, of which nothing else is changed.", "quantifier": "all databases, statements, binding descriptions and data", "why_tests_cant": "Row ids of more than 32 bits and long histories of a connection are not tested.", "anchors": ["sqlite3/cee-sqlite3.c: cee_sqlite3_insert, cee_sqlite3_delete, cee_sqlite3_update, cee_sqlite3_update_if_exists"]}
{"id": "C55", "title": "Every prepared statement is finalized", "statement": "When cee_sqlite3_bind_run_sql is called without a place for the statement, and when any of cee_sqlite3_insert, cee_sqlite3_delete, cee_sqlite3_update_if_exists, cee_sqlite3_update_or_insert returns, as many statements are open as before.", "quantifier": "all databases, statements, binding descriptions and data, all ways of failing", "why_tests_cant": "A leak is not visible in results; it needs every path of failure.", "anchors": ["sqlite3/cee-sqlite3.c: cee_sqlite3_bind_run_sql, cee_sqlite3_insert, cee_sqlite3_delete, cee_sqlite3_update_if_exists, cee_sqlite3_update_or_insert"]}
{"id": "C56", "title": "Statements composed from an object", "statement": "The update statement that cee_sqlite3_generic_opcode composes sets exactly the declared columns that the object has, that may be updated and that have a value; the insert statement names exactly those columns that have a value or must not be null, and gives for each of them its own parameter at the same position.", "quantifier": "all binding descriptions, data and JSON objects", "why_tests_cant": "All subsets and orders of columns, with defaults and flags.", "anchors": ["sqlite3/cee-sqlite3.c: compose_dyn_stmts"]}
{"id": "C57", "title": "Select gives the rows", "statement": "cee_sqlite3_select runs the statement with the supplied values and gives one JSON value per row, in order, appended to the status (or as a new array): an object with a member for each returned column (integers, doubles, texts, blobs, null), or the value itself for a single column without label. If the statement fails, at whatever row, its code is returned, the error is in the status, and no statement stays open.", "quantifier": "all databases, statements, binding descriptions, data and results", "why_tests_cant": "Any number of rows and columns, repeated column names, all flags, and failures of SQLite at any step.", "anchors": ["sqlite3/cee-sqlite3.c: cee_sqlite3_select, cee_sqlite3_select_iter, get_a_row"]}
{"id": "C58", "title": "Select one row", "statement": "cee_sqlite3_select1 merges the first row into the status, or gives it as the status; without a row the status stays as it is; errors are reported in the status.", "quantifier": "all databases, statements, binding descriptions, data, results and previous statuses", "why_tests_cant": "Merging with arbitrary statuses, and failures of SQLite.", "anchors": ["sqlite3/cee-sqlite3.c: cee_sqlite3_select1"]}
{"id": "C59", "title": "Select one row or insert", "statement": "cee_sqlite3_select1_or_insert gives the row that the select statement finds and inserts nothing, or inserts when there is none and reports the id of the new row; when the select fails nothing is inserted and the error is reported.", "quantifier": "all databases, statements, binding descriptions, data and results", "why_tests_cant": "Rows with any column names; failures of SQLite.", "anchors": ["sqlite3/cee-sqlite3.c: cee_sqlite3_select1_or_insert"]}
{"id": "C60", "title": "The next int", "statement": "cee_sqlite3_next_int returns one more than the greatest value of the column, 1 if there is none, and -1 with the error in the status if the query fails.", "quantifier": "all columns, from clauses and values", "why_tests_cant": "Values near the limits of int, and long clauses, are not tested.", "anchors": ["sqlite3/cee-sqlite3.c: cee_sqlite3_next_int"]}
{"id": "C61", "title": "JSON arrays are sequences", "statement": "Every history of appending (values, booleans, strings), inserting, appending another array, removing, reading and measuring a JSON array gives the results and the elements of a sequence of values; nothing else in memory changes. Iterating visits the elements in order until the callback returns something different from 0.", "quantifier": "all memories with a JSON array, all histories of operations, all indices and values", "why_tests_cant": "Any interleaving and any length, indices out of range, arrays appended to themselves.", "anchors": ["cee-json/value.c: cee_json_array_append, cee_json_array_append_bool, cee_json_array_append_str, cee_json_array_append_strf, cee_json_array_insert, cee_json_array_concat, cee_json_array_remove, cee_json_array_get, cee_json_array_length, cee_json_array_iterate"]}
{"id": "C62", "title": "Operations on JSON objects share one protocol", "statement": "Whatever the operation is, cee_sqlite3_generic_opcode runs it exactly once, with the data of the columns taken from the object and with the statements composed for it: an update that sets exactly the members that are updatable columns, an insert of exactly the columns that have or need a value. Nothing that was in memory changes except the status, which afterwards has a field debug with the composed statements and with the keys that were used and those that were not; its other fields are those that the operation left. If a member has a value that its column does not take, the operation is not run.", "quantifier": "all operations, databases, objects, entries, data, statements and statuses", "why_tests_cant": "The operation is an arbitrary function; objects and entries of any size, members without a column, columns without a member.", "anchors": ["sqlite3/cee-sqlite3.c: cee_sqlite3_generic_opcode, compose_dyn_stmts, populate_usage, accept_result"]}
{"id": "C63", "title": "Inserting, updating and selecting with a JSON object", "statement": "Inserting an object runs exactly one statement, insert into T (columns) values (parameters), for the columns that the object has, that have a default or that must not be null, with the value of the member, else the default, else zero; the id is reported, or an error. Updating or inserting selects first; if there is a row it runs the update of the members that may be updated, else the insert, each with the values of the object. Selecting with an object returns the rows.", "quantifier": "all databases, objects, entries and statements", "why_tests_cant": "Covers the whole path from the JSON object to the values that SQLite gets; any number of columns, with and without members.", "anchors": ["sqlite3/cee-sqlite3.c: cee_sqlite3_insert_op, cee_sqlite3_update_or_insert_op, cee_sqlite3_update_if_exists_op, cee_sqlite3_update_op, cee_sqlite3_select_op"]}
{"id": "C64", "title": "Typed access to JSON values", "statement": "Each of the functions that read a value as a double, int, int64, uint64, boolean, string, blob, array or object gives exactly the content if the value is of this type (for an int: if it is in the range), and otherwise fails without changing the variable of the caller. cee_json_empty holds exactly for arrays and objects without elements.", "quantifier": "all values in memory", "why_tests_cant": "Every type against every accessor, and the boundaries of int.", "anchors": ["cee-json/value.c: cee_json_to_doublex, cee_json_to_intx, cee_json_to_i64x, cee_json_to_u64x, cee_json_to_boolx, cee_json_to_str, cee_json_to_strn, cee_json_to_blob, cee_json_to_object, cee_json_to_array, cee_json_empty"]}
{"id": "C65", "title": "Converting a field to an integer", "statement": "cee_json_object_convert_to_i64 leaves an integer field as it is, turns a string field that spells a 64-bit integer into this integer, and otherwise returns false and changes nothing, also when there is no such field. A text spells an integer if it consists of white space, perhaps a sign, and digits, and of nothing else.", "quantifier": "all objects, keys and texts", "why_tests_cant": "Texts of any length with signs, blanks, trailing characters and values at the limits.", "anchors": ["cee-json/value.c: str2i64, cee_json_object_convert_to_i64"]}
{"id": "C66", "title": "The first error stays", "statement": "However many errors are reported in a status with cee_json_set_error, the status keeps the first one, and its other fields and the rest of the memory do not change. A missing status is ignored.", "quantifier": "all statuses and all sequences of messages", "why_tests_cant": "Sequences of any length; statuses with any fields.", "anchors": ["cee-json/value.c: cee_json_set_error"]}
{"id": "C67", "title": "JSON values in files", "statement": "Loading a file that contains a JSON text gives its value; loading any other file gives NULL and the line of the error. Saving a value writes exactly its text behind what was written before and returns true, or returns false if there was not enough room. A value that is saved and loaded again is the same value. Nothing outside the file's bytes is read.", "quantifier": "all files and all JSON values", "why_tests_cant": "Files of any size, also empty and truncated ones; values of all kinds; files that become full while writing.", "anchors": ["cee-json/value.c: cee_json_load_from_fileno, cee_json_load_from_FILE, cee_json_load_from_file_path, cee_json_load_from_buffer, cee_json_save_fileno, cee_json_save"]}
{"id": "C68", "title": "Merging JSON files", "statement": "Merging the JSON objects of several files writes one file: the members of the first file, with those of each further file merged in one after the other (objects recursively, arrays concatenated, otherwise the later value), and under originals the names of the files. No other file changes. If a file cannot be opened or contains no JSON, 1 is returned and no file changes.", "quantifier": "all lists of files with any contents", "why_tests_cant": "Any number of files, also one; members in several files, of the same and of different kinds; the output among the inputs; a member called originals; missing and invalid files.", "anchors": ["cee-json/cee_json_merge.c: cee_json_merge_all"]}
{"id": "C69", "title": "Inserting an array of objects as rows", "statement": "Inserting a JSON array of objects into a table runs one insert statement per object, in order, that names all its members as columns and has its integers and strings as the values of the parameters and null for the nulls. A row that fails leaves the database as it is. No value in memory changes and no statement is left open. The result is 0 if and only if all rows are stored.", "quantifier": "all arrays of objects with integers, strings and nulls; every SQLite", "why_tests_cant": "Rows without columns, of nulls only, with many columns, with different columns; statements that do not compile; keys that are no identifiers; empty arrays.", "anchors": ["sqlite3/cee-sqlite3.c: cee_sqlite3_insert_json_array, insert_one_json_object, collect_colums_values"]}
{"id": "C70", "title": "Joining objects with a table", "statement": "Joining an array of objects with a select statement runs the statement once for each object, in order, with the members of the object as the values of the parameters. With a key the rows become a member of the object, without one the first row is merged into it, if there is one. Nothing else in memory changes and no statement is left open. An object that lacks a member that is needed, or has one of a kind that is not supported, gets a message as its member error, and the objects after it stay as they are.", "quantifier": "all arrays of objects that share nothing; every SQLite in which the statement finishes", "why_tests_cant": "Objects without a member, members of other kinds, statements without rows, rows with members that the object has, parameters of the different types, entries with values of their own.", "anchors": ["sqlite3/join.c: join_one, cee_sqlite3_json_array_join_table, cee_sqlite3_json_object_join_table"]}
{"id": "C71", "title": "Linked lists of the caller's objects", "statement": "Putting an object behind another and taking one out keeps linear and circular lists intact: after any sequence of such operations each object points to the ones before and behind it in its list, NULL at the ends of a linear list. Lists that an operation does not name, and objects in no list, are not touched.", "quantifier": "all sequences of operations that put an object into one list at a time and take out only what is in a list; any number of objects and lists", "why_tests_cant": "The first, the last and the only object of a list, circular lists of one and two objects, objects that are put back elsewhere, objects whose pointers were never written.", "anchors": ["musl-insque.c: musl_insque, musl_remque"]}
{"id": "C72", "title": "Linear search", "statement": "Searching a table for a key gives the first element that compares equal; a key that is new is copied behind the last element and the number of elements grows by one; looking up without adding gives NULL then. Nothing else is written.", "quantifier": "all tables, keys, widths and comparison functions that look at the contents only", "why_tests_cant": "An empty table, a key that is there twice, keys that are looked up again after they were added, the last free place.", "anchors": ["musl-lsearch.c: musl_lsearch, musl_lfind"]}
{"id": "C73", "title": "Selecting under a name", "statement": "Selecting rows under a name puts the array of the rows under that name into the status object, behind the rows that are there already; selecting one row puts the row under the name, or merges it into the value there. A statement that fails gives its code and an error. No other member and no other value changes.", "quantifier": "all databases, statements, parameters and rows; all status objects and names", "why_tests_cant": "No status object yet, a name that has an array, a text, an object or a number already, no row, a column that is called error, a failing statement.", "anchors": ["sqlite3/cee-sqlite3.c: cee_sqlite3_select_as, cee_sqlite3_select1_as", "sqlite3/cee-sqlite3.h: 175-210"]}
{"id": "C74", "title": "Settings as text", "statement": "Printing the paths or the settings of a database into a buffer stores the names and values in order, cut to the size of the buffer with a NUL at the end, and gives the length of the complete text, as snprintf does. Nothing is written outside the buffer.", "quantifier": "all paths and settings, all buffers", "why_tests_cant": "A buffer that is exactly large enough, one that ends in the first item or in the last, one of size 0.", "anchors": ["sqlite3/cee_dbm.c: cee_dbm_path_info_snprint, cee_dbm_settings_snprint, cee_dbm_path_info2str, cee_dbm_db_info2str"]}
{"id": "C75", "title": "The home directory in paths", "statement": "$HOME at the start of a path is replaced by the home directory; other paths stay as they are.", "quantifier": "all paths in arrays of 128 bytes and all home directories", "why_tests_cant": "Only $HOME, $HOME twice, $HOME in the middle, a home directory that is too long, an empty one.", "anchors": ["sqlite3/cee_dbm.c: replace_home_env, cee_dbm_path_info_normalize"]}
{"id": "C76", "title": "Making directories", "statement": "mkdir_p makes all directories of a path that are not there, from left to right, and changes nothing else; a file in the way is an error. A descriptor of the directory is stored when one is asked for.", "quantifier": "all file systems without links, working directories, and paths, absolute and relative", "why_tests_cant": "Slashes in a row and at the end, names . and .., directories that are there, a file at the path or above it, the root, one name only.", "anchors": ["sqlite3/cee_dbm.c: mkdir_p_ext, mkdir_p"]}
{"id": "C77", "title": "Making and migrating databases", "statement": "cee_dbm_db_init makes the database from its create script if it is not there, or anew if that is asked for, restores and customizes a new one from the scripts for its version, and brings it to the next version if there is a script. It tells whether the database is new and its version, leaves other databases as they are, logs its use and closes all connections. A script that is missing or fails is an error.", "quantifier": "all file systems without links, databases, settings, paths and scripts; SQLite is any function from databases and scripts to databases", "why_tests_cant": "No database and no directory, a database that is there, one to be made anew, scripts that are missing or fail, a restore prefix, names that are too long.", "anchors": ["sqlite3/cee_dbm.c: cee_dbm_db_init, open_dbm_log, add_log, my_apply_script, get_user_version", "sqlite3/cee-sqlite3.c: cee_sqlite3_init_db, cee_sqlite3_drop_all_tables, cee_sqlite3_get_pragma_variable"]}
{"id": "C78", "title": "Saving, opening and attaching databases", "statement": "cee_dbm_db_backup runs the dump of a database into the script from which it is restored, tells whether this has worked, logs it and closes all connections. A database is opened, or attached for reading, if and only if it is there.", "quantifier": "all file systems without links, databases, paths and names", "why_tests_cant": "A missing database, a command that fails, names that are too long.", "anchors": ["sqlite3/cee_dbm.c: cee_dbm_db_backup, cee_dbm_db_exist, cee_dbm_open_db, cee_dbm_attach_db"]}
{"id": "C79", "title": "The parser leaves nothing but the value in memory", "statement": "cee_json_parsex builds the value of the text out of new objects with the right reference counts, changes no object that was there before, and leaves no other new object behind; if it fails it leaves none.", "quantifier": "all heaps reached by any operations, all texts, any order of the entries in the tree of a map", "why_tests_cant": "Objects that are lost show only in a count of all objects; tests look at the value.", "anchors": ["cee-json/parser.c: cee_json_parsex, SPI", "cee-json/value.c: cee_json_array_mk, cee_json_object_mk, cee_json_str_mk, cee_json_i64_mk, cee_json_double_mk", "cee-json/tokenizer.c: cee_json_next_token", "map.c: cee_map_add", "stack.c: cee_stack_push, cee_stack_pop"]}
{"id": "C80", "title": "Deleting a JSON value frees exactly its objects", "statement": "cee_del applied to a JSON value that nobody else uses frees every object of it once and touches nothing else. A program that parses texts without repeated names and deletes values in any order always holds exactly the objects of the values it has; when all are deleted the heap is as before.", "quantifier": "all values, all heaps with a well-formed chain, all programs that parse and delete", "why_tests_cant": "Keys are counted twice, constants are shared, and a map deletes its pairs and its list of keys in two different ways; a wrong count is a leak or a double free only for some shapes.", "anchors": ["cee-common.c: cee_del", "map.c: S(trace), S(free_pair_follow)", "list.c: S(trace)", "tuple.c: S(trace)", "tagged.c: S(trace)", "singleton.c: S(trace)"]}
{"id": "C81", "title": "Editing JSON values leaves only their objects in memory", "statement": "A program that creates and parses JSON values, puts them into objects and arrays (also deep inside), replaces, removes and renames parts, and deletes values, in any order: every value is what the edits make of it, a part that is taken out or replaced becomes a value of its own, no two values share an object, and there are no objects besides those of the values. When everything is deleted the heap is as before.", "quantifier": "all sequences of such operations on all heaps reached by any operations, any order of the entries in the tree of a map", "why_tests_cant": "Reference counts of keys, pairs and values change in different ways in each operation, and a lost or doubly counted object shows only after later operations.", "anchors": ["cee-json/value.c: cee_json_object_set, cee_json_object_remove, cee_json_object_rename, cee_json_array_append, cee_json_array_insert, cee_json_array_remove, cee_json_object_get, cee_json_array_get", "map.c: cee_map_add, cee_map_remove, cee_map_rename", "list.c: cee_list_append, cee_list_insert, cee_list_remove"]}
{"id": "C82", "title": "Printing JSON values leaves nothing but the text in memory", "statement": "A program that creates, parses, edits and deletes JSON values as in C81 and also prints them, or parts of them, in either format, deleting each text when it has copied it: every text is the text of the value as it is at that moment, and printing neither adds nor removes nor changes an object. cee_json_snprint alone, with or without a buffer, does to the text what the printer of values does, and changes no object.", "quantifier": "all sequences of such operations on all heaps reached by any operations, all values, formats and buffers", "why_tests_cant": "The printer works with a stack of tuples and counters, and with lists that count on the keys of the objects being printed; a list deleted too early or never would show up as a key deleted too early or never.", "anchors": ["cee-json/snprint.c: cee_json_snprint, cee_json_asprint, push", "map.c: cee_map_insertion_ordered_keys, cee_map_find", "stack.c: cee_stack_push, cee_stack_pop, cee_stack_full"]}
{"id": "C83", "title": "Closures are lexically scoped", "statement": "A program made of functions that make maps of variables, environments and closures, look up and bind names and call closures, computes what lexical scoping says: a called closure sees the names of the scope it was made in, with the values they have at the time of the call, whoever calls it and however often; and it gets the arguments of the call in order and their stated number.", "quantifier": "all tables of functions, including ones that call themselves through names, all programs, all arguments, all names under any total order", "why_tests_cant": "A wrong scope only shows in programs where two scopes bind the same name; which programs those are depends on every earlier binding and call.", "anchors": ["closure.c: cee_closure_mk, cee_closure_call", "env.c: cee_env_mk, cee_env_find", "map.c: cee_map_add, cee_map_find"]}
{"id": "C84", "title": "A JSON value may be in several places", "statement": "A program that creates JSON values, keeps pointers to them and to their parts, puts one value into any number of arrays and objects, appends arrays to each other, takes parts out, and deletes values that are in no place, in any order: the memory holds exactly the graph of values that these steps make, the reference count of every value is the number of places it is in, and deleting a value deletes exactly those of its parts that are then in no other place. When no value is left the heap is as before.", "quantifier": "all sequences of such operations on all heaps reached by any operations, any order of the entries in the tree of a map, all graphs of values", "why_tests_cant": "Which parts a deletion takes depends on all places of all parts, through any number of levels; a wrong count shows only when the last place goes.", "anchors": ["cee-json/value.c: cee_json_object_set, cee_json_array_append, cee_json_array_insert, cee_json_array_concat, cee_json_array_remove, cee_json_object_remove, cee_json_object_get, cee_json_array_get", "stdc: cee_del, cee_del_e, cee_del_ref, cee_incr_indegree", "map.c: cee_map_add, cee_map_remove", "list.c: cee_list_append, cee_list_insert, cee_list_remove"]}
{"id": "C85", "title": "Blocks of bytes", "statement": "A block made for n bytes by cee_block_mk, cee_block_mk_nonzero or cee_block_mk_e has n bytes that may be used, which are 0 for cee_block_mk and what init_f makes of them for cee_block_mk_e, and cee_block_size gives n. A pointer to a string can be used as a pointer to a block, and cee_block_empty gives a block of size 0.", "quantifier": "all sizes of type size_t, all functions init_f, all strings", "why_tests_cant": "The size of the header is added to n, which wraps around only for sizes no test allocates; reading the size of a string that is used as a block reads the bytes before an allocation, where any number may be.", "anchors": ["block.c: cee_block_mk_nonzero, cee_block_mk, cee_block_mk_e, cee_block_size", "str.c: cee_block_empty, struct S(header)", "cee.h:152-188"]}
{"id": "C86", "title": "Strings made of given bytes", "statement": "cee_str_strn(st, s, n) gives the string of the n bytes at s, on which all other string operations work; cee_str_end gives its terminator, or NULL if there is none; cee_str_ncat appends n bytes.", "quantifier": "all byte sequences, all sequences of later operations, both resize methods", "why_tests_cant": "The byte behind the last one is whatever malloc gives, which is often 0 in a test.", "anchors": ["str.c: cee_str_strn, cee_str_end, cee_str_ncat, cee_str_add, cee_str_catf, cee_str_replace", "cee.h:150, :194-199, :217"]}
{"id": "C87", "title": "Iterating over the rows of a statement", "statement": "cee_sqlite3_select_iter calls the function for every row of the result in order, until it returns something other than 0 or the rows are over; the statement is closed in both cases, and no other value in memory changes. If the statement fails its code is returned.", "quantifier": "all databases, statements, bindings and results, all functions f on the memory", "why_tests_cant": "The function may stop at any row, and the statement may fail at any row.", "anchors": ["sqlite3/cee-sqlite3.c: cee_sqlite3_select_iter, cee_sqlite3_bind_run_sql"]}
{"id": "C88", "title": "Programs with hash tables", "statement": "Any number of tables of musl-hsearch.c can be used at the same time: a search finds the entry that was first entered under the key, with the data last written through a pointer to it; pointers to entries can be kept and used until the table is destroyed; destroying all tables releases all memory.", "quantifier": "all sequences of hcreate, hdestroy, hsearch and uses of kept pointers, on any number of tables, with any keys, data and sizes", "why_tests_cant": "Collisions and growth happen for unfortunate keys only; a pointer that was kept while the table grew mostly still shows the old entry.", "anchors": ["musl-hsearch.c: musl_hcreate, musl_hcreate_r, musl_hdestroy, musl_hdestroy_r, musl_hsearch, musl_hsearch_r, resize, lookup"]}
{"id": "C89", "title": "Setting up a connection", "statement": "cee_sqlite3_init keeps the name and the path of a connection; cee_sqlite3_attach_db attaches the file with the given name in the directory of the database under the given name, or fails; cee_sqlite3_detach_db detaches it; cee_sqlite3_get_pragma_variable gives the value of a pragma; a copy of an operation has its own zeroed data for every column.", "quantifier": "all names, paths, files, buffers and sizes, all numbers of columns", "why_tests_cant": "The statement is built with snprintf in a buffer of the caller, so long names are cut, and nothing is quoted.", "anchors": ["sqlite3/cee-sqlite3.c: cee_sqlite3_init, cee_sqlite3_attach_db, cee_sqlite3_detach_db, cee_sqlite3_get_pragma_variable, new_cee_sqlite3_db_op"]}

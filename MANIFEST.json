{
 "claims": [
  {
   "property": "C01",
   "status": "proved",
   "theorems": [
    "C01_map_is_finite_map",
    "C01_find_returns_latest"
   ],
   "note": "Histories of fewer than 2^31 operations (the code counts keys with an int); renaming a key bound to NULL is excluded here, see C46."
  },
  {
   "property": "C02",
   "status": "proved",
   "theorems": [
    "C02_insertion_order",
    "C02_keys_exactly_once"
   ],
   "note": ""
  },
  {
   "property": "C03",
   "status": "partial",
   "theorems": [
    "C03_set_membership",
    "C03_set_is_finite_set_partial",
    "C03_set_count",
    "C03_set_clear",
    "C03_set_size_refuted"
   ],
   "note": "Membership proved for all histories, clearing included. Size/emptiness proved when no pointer already present is added again; false otherwise (witness); what they are then is proved too."
  },
  {
   "property": "C04",
   "status": "proved",
   "theorems": [
    "C04_tree_balanced",
    "C04_path_buffer_sufficient"
   ],
   "note": ""
  },
  {
   "property": "C05",
   "status": "proved",
   "theorems": [
    "C05_tree_walk_visits_once",
    "C05_map_walk",
    "C05_set_walk"
   ],
   "note": ""
  },
  {
   "property": "C06",
   "status": "proved",
   "theorems": [
    "C06_list_is_sequence"
   ],
   "note": "Fewer than 2^31 operations (int loop counters)."
  },
  {
   "property": "C07",
   "status": "partial",
   "theorems": [
    "C07_remove_out_of_range",
    "C07_insert_out_of_range_refuted",
    "C07_insert_exact"
   ],
   "note": "Removal proved; insertion out of range is false (witnesses); C07_insert_exact says what it does for every index out of range."
  },
  {
   "property": "C08",
   "status": "partial",
   "theorems": [
    "C08_iterate_partial",
    "C08_iterate_empty_refuted",
    "C08_null",
    "C08_merge_partial",
    "C08_merge_self_refuted"
   ],
   "note": "Iteration on an empty list returns an indeterminate value; merging a list into itself does not terminate."
  },
  {
   "property": "C09",
   "status": "proved",
   "theorems": [
    "C09_stack_is_bounded_lifo"
   ],
   "note": ""
  },
  {
   "property": "C46",
   "status": "partial",
   "theorems": [
    "C46_rename",
    "C46_rename_exact",
    "C46_rename_null_value_refuted",
    "C46_merge",
    "C46_clone_lookup",
    "C46_clone_order_refuted"
   ],
   "note": "Rename loses an entry whose value is NULL (C46_rename_exact: what all histories give); clone does not keep the key order."
  },
  {
   "property": "C47",
   "status": "partial",
   "theorems": [
    "C47_set_clone",
    "C47_set_union",
    "C47_union_size_refuted",
    "C47_union_exact"
   ],
   "note": "Elements of union and clone proved; the size of a union counts shared pointers twice (C47_union_exact: elements and size for all histories)."
  },
  {
   "property": "C48",
   "status": "partial",
   "theorems": [
    "C48_map_null_partial",
    "C48_map_null_refuted",
    "C48_set_null_partial",
    "C48_set_null_refuted"
   ],
   "note": "size/iterate of a NULL map and iterate of a NULL set are safe; the other documented operations dereference NULL."
  },
  {
   "property": "C10",
   "status": "proved",
   "theorems": [
    "C10_dict_first_add_wins"
   ],
   "note": "Up to 2^61 adds. The requested table size (float arithmetic in cee_dict_mk_e) is an arbitrary parameter."
  },
  {
   "property": "C11",
   "status": "proved",
   "theorems": [
    "C11_probe_covers_table",
    "C11_lookup_terminates"
   ],
   "note": ""
  },
  {
   "property": "C12",
   "status": "partial",
   "theorems": [
    "C12_mk_partial",
    "C12_mk_directive_fails",
    "C12_mk_refuted",
    "C12_mk_e_text",
    "C12_mk_e_room_partial",
    "C12_mk_e_room_refuted",
    "C12_mk_e_room_all_refuted"
   ],
   "note": "cee_str_mk uses its va_list twice: every format with a directive is undefined behaviour. cee_str_mk_e prints correctly but ignores n when a format is given."
  },
  {
   "property": "C13",
   "status": "partial",
   "theorems": [
    "C13_growth_partial",
    "C13_add_realloc_refuted",
    "C13_add_realloc_all_refuted",
    "C13_add_long_refuted",
    "C13_add_long_all_refuted"
   ],
   "note": "Proved for the malloc method and for catf/replace under realloc. Refuted: cee_str_add to any full string under realloc reads the freed block; any string of 2^32 bytes or more is overwritten at its length modulo 2^32."
  },
  {
   "property": "C14",
   "status": "partial",
   "theorems": [
    "C14_rtrim_partial",
    "C14_rtrim_refuted",
    "C14_ltrim_partial",
    "C14_ltrim_refuted",
    "C14_rtrim_exact",
    "C14_ltrim_exact"
   ],
   "note": "Exact behaviour proved; the first character is never trimmed on the right, one leading blank always stays on the left."
  },
  {
   "property": "C15",
   "status": "partial",
   "theorems": [
    "C15_replace_at_offset",
    "C15_replace_at_offset_refuted",
    "C15_replace_all_partial",
    "C15_replace_all_refuted"
   ],
   "note": "Right text always; exact condition for the one-byte overflow."
  },
  {
   "property": "C16",
   "status": "partial",
   "theorems": [
    "C16_replace_ext_partial",
    "C16_replace_ext_exact",
    "C16_replace_ext_refuted"
   ],
   "note": "Exact condition for overflow; division by zero when a replacement list has only empty new texts or an empty old text."
  },
  {
   "property": "C17",
   "status": "partial",
   "theorems": [
    "C17_trim",
    "C17_chop_sides",
    "C17_chop_by_delim",
    "C17_try_chop_by_delim",
    "C17_while",
    "C17_from_cstr",
    "C17_chop_by_sv_partial",
    "C17_chop_by_sv_exact",
    "C17_chop_by_sv_end_refuted",
    "C17_chop_by_sv_long_refuted"
   ],
   "note": "Everything proved except chopping by a text: it keeps a delimiter at the very end of the view and underflows for a delimiter longer than the view; C17_chop_by_sv_exact says what it does for all views and delimiters."
  },
  {
   "property": "C51",
   "status": "proved",
   "theorems": [
    "C51_compare",
    "C51_index_of",
    "C51_to_u64"
   ],
   "note": ""
  },
  {
   "property": "C20",
   "status": "proved",
   "theorems": [
    "C20_state_delete"
   ],
   "note": "For every history of library calls under one state (all constructors, element operations, resizing with both methods, deletion, collection) deleting the state succeeds and frees each remaining block once; h_freed is the log of all frees."
  },
  {
   "property": "C21",
   "status": "partial",
   "theorems": [
    "C21_chain_partial",
    "C21_chain_end_partial",
    "C21_sweep_partial",
    "C21_end_refuted",
    "C21_end_realloc_refuted",
    "C21_gc_after_resize_refuted",
    "C21_gc_loops_refuted"
   ],
   "note": "Chain from the state to its tail proved for all histories; that the tail ends the chain proved for histories resizing only the newest block, and refuted otherwise: a resized block keeps its old trace_next, after which collection loops or touches freed memory."
  },
  {
   "property": "C22",
   "status": "partial",
   "theorems": [
    "C22_partial",
    "C22_again_partial",
    "C22_closure_refuted",
    "C22_map_keys_refuted"
   ],
   "note": "For every history, everything the state holds except closures stays, unchanged. Closures and what they capture are freed; so is the internal key list of every map, the contexts map included."
  },
  {
   "property": "C23",
   "status": "partial",
   "theorems": [
    "C23_partial",
    "C23_twice_partial",
    "C23_between_partial",
    "C23_refuted"
   ],
   "note": "Exact contents after every odd-numbered collection and after any two consecutive ones, for histories resizing only the newest block; refuted for even-numbered ones: new garbage carries mark 0. What an even-numbered one leaves is exact too (C23_between_partial): everything made since the one before stays, if no block is resized in between."
  },
  {
   "property": "C24",
   "status": "partial",
   "theorems": [
    "C24_partial",
    "C24_refuted"
   ],
   "note": "Terminates on acyclic graphs of live objects with any sharing; diverges on a self-containing list."
  },
  {
   "property": "C25",
   "status": "partial",
   "theorems": [
    "C25_counts_partial",
    "C25_delete_partial",
    "C25_acyclic_partial",
    "C25_overflow_refuted",
    "C25_env_refuted",
    "C25_map_readd_refuted",
    "C25_set_refuted"
   ],
   "note": "Proved for every object graph (cyclic ones too) brought about by lawful calls on lists, stacks, products, tagged values, maps and contexts. False, with witnesses, for 65536 holders, environments that count, re-adding a value to a map, and sets. Dictionaries, resized objects and explicit count changes are outside the proved class."
  },
  {
   "property": "C26",
   "status": "partial",
   "theorems": [
    "C26_operations",
    "C26_delete_partial",
    "C26_make",
    "C26_map_keys_refuted",
    "C26_map_foreign_key_refuted",
    "C26_dict_refuted",
    "C26_gc_refuted"
   ],
   "note": "Proved in every heap for lists, stacks, sets, products, tagged values and environments, and for deletion after every history. False for the keys of maps and for dictionaries, whose internal lists count; the collector follows no-operation elements."
  },
  {
   "property": "C27",
   "status": "partial",
   "theorems": [
    "C27_retained",
    "C27_delete_holder",
    "C27_owner_partial",
    "C27_count_then_own_refuted",
    "C27_release_refuted",
    "C27_two_owners_refuted"
   ],
   "note": "Proved: a retained object outlives every sequence of counted operations and the deletion of counting lists and stacks; in lawful histories an owned object is freed exactly with its owner. False when counted and owned references are mixed, with witnesses."
  },
  {
   "property": "C49",
   "status": "partial",
   "theorems": [
    "C49_partial",
    "C26_delete_partial",
    "C49_set_crash",
    "C49_set_refuted",
    "C49_dict_refuted"
   ],
   "note": "Proved for containers filled by lawful calls and, after every history, for containers with the no-operation policy. False for non-empty sets (NULL dereference) and for dictionaries with the no-operation policy (leak)."
  },
  {
   "property": "C18",
   "status": "proved",
   "theorems": [
    "C18_round_trip",
    "C18_other_type",
    "C18_print"
   ],
   "note": "Floating-point values are bit patterns; how libc prints them is a parameter (no claim about their text)."
  },
  {
   "property": "C19",
   "status": "partial",
   "theorems": [
    "C19_lexical_partial",
    "C19_exact",
    "C19_null_value_refuted",
    "C19_null_vars_refuted"
   ],
   "note": "Proved for all chains of environments with maps whose values are not NULL. A name bound to NULL does not shadow; an environment without a map hides all outer ones. C19_exact says what is found in all chains, these included."
  },
  {
   "property": "C50",
   "status": "partial",
   "theorems": [
    "C50_components_partial",
    "C50_default_partial",
    "C50_n_tuple_partial",
    "C50_null_refuted",
    "C50_exact"
   ],
   "note": "Proved for all components that are library objects, or any pointers under the no-operation policy. A NULL component under the default policy crashes the constructor (C50_exact: every constructor, with the first component that is NULL or no object of the library). cee_quadruple_mk is declared but not defined in the repository."
  },
  {
   "property": "C35",
   "status": "proved",
   "theorems": [
    "C35_validate_exact",
    "C35_encode_decode",
    "C35_decode_encode",
    "C35_encode"
   ],
   "note": ""
  },
  {
   "property": "C29",
   "status": "partial",
   "theorems": [
    "C29_accepts_only_partial",
    "C29_relaxed_language",
    "C29_no_nul",
    "C29_trailing_comma_refuted",
    "C29_leading_zeros_refuted",
    "C29_invalid_utf8_refuted",
    "C29_unpaired_surrogate_refuted",
    "C29_comment_refuted"
   ],
   "note": "Accepted texts are characterised exactly: RFC 8259 relaxed by trailing commas, superfluous zeros before a fraction or exponent, unvalidated bytes in strings without escapes, a trailing unpaired high surrogate, saturated integers, strings cut at U+0000, and a comment containing a NUL. Each relaxation has a witness."
  },
  {
   "property": "C30",
   "status": "partial",
   "theorems": [
    "C30_accepts_all_partial",
    "C30_exact",
    "C30_big_integer_refuted",
    "C30_all_big_integers_refuted",
    "C30_nul_refuted"
   ],
   "note": "All RFC texts nested less than 512 deep whose integers fit 64 bits and whose strings do not contain U+0000 are accepted with their value. The two restrictions are necessary. C30_exact covers the texts without them: all are accepted, with strings that end at their first U+0000 and integers replaced by the nearest one of 64 bits."
  },
  {
   "property": "C31",
   "status": "partial",
   "theorems": [
    "C31_terminates_partial",
    "C31_line_number_refuted",
    "C31_stack",
    "C31_depth"
   ],
   "note": "Termination, absence of failures, stack bound, depth bound; the reported line counts from 0, not 1."
  },
  {
   "property": "C32",
   "status": "partial",
   "theorems": [
    "C32_bounds_partial",
    "C32_independent_partial",
    "C32_overread_refuted",
    "C32_number_all_refuted",
    "C32_overread_value_refuted",
    "C32_overread_value_all_refuted"
   ],
   "note": "With a NUL behind the text nothing beyond it is read; without it the parser reads beyond buf+len, for all texts that are a number; if the number goes on there, all of it is read whatever length was given."
  },
  {
   "property": "C36",
   "status": "partial",
   "theorems": [
    "C36_bounds",
    "C36_decodes",
    "C36_unpaired_low",
    "C36_unpaired_high_partial",
    "C36_unpaired_surrogate_refuted"
   ],
   "note": "Bounds and decoding in full; unpaired surrogates are rejected except a high one at the very end, which is dropped."
  },
  {
   "property": "C37",
   "status": "partial",
   "theorems": [
    "C37_exact_partial",
    "C37_nearest",
    "C37_silent_change_refuted",
    "C37_leading_zeros"
   ],
   "note": "Exact within 64 bits; out of range literals saturate silently; leading zeros rejected."
  },
  {
   "property": "C28",
   "status": "proved",
   "theorems": [
    "C28_round_trip"
   ],
   "note": "both formats; height at most 498 compact and 127 readable, which is what the printer supports (C34); strings below 4 GiB"
  },
  {
   "property": "C33",
   "status": "partial",
   "theorems": [
    "C33_compact",
    "C33_both_partial",
    "C33_dprintf_partial",
    "C33_deep_readable_refuted",
    "C33_blob_refuted",
    "C33_blob_all_refuted"
   ],
   "note": "compact at any depth; readable up to 127 levels; values without blobs; refuted for blobs (cee_str_mk with a directive, C12) and for readable at 130 levels (char tab counter overflows, asprint writes before its buffer)"
  },
  {
   "property": "C34",
   "status": "partial",
   "theorems": [
    "C34_complete_partial",
    "C34_deep_refuted",
    "C34_readable_refuted",
    "C34_infinite_refuted"
   ],
   "note": "complete up to 498 levels compact, 127 readable, when doubles print as numbers; refuted beyond and for infinite doubles"
  },
  {
   "property": "C38",
   "status": "partial",
   "theorems": [
    "C38_stored",
    "C38_get",
    "C38_remove",
    "C38_history_partial",
    "C38_set_refuted"
   ],
   "note": "C38_get and C38_remove are about the code as it is. C38_history_partial: every history of set (null, bool, double, i64, u64, string, existing value), remove, rename and get on an object behaves like a function from names to values, provided that cee_str_mk(st, \"%s\", key) gives the key, as it does where a va_list is passed by value; by the C standard it does not (C12), and C38_set_refuted shows that then no field can be set or renamed. Histories shorter than 2^31."
  },
  {
   "property": "C40",
   "status": "partial",
   "theorems": [
    "C40_merge_partial",
    "C40_merge_or_return_partial",
    "C40_self_refuted",
    "C40_shared_refuted"
   ],
   "note": "C40_merge_partial: for all values, if no array or object is in dest twice or in both dest and src: terminates, the result is the merge (objects recursively, src wins, arrays concatenated), src is unchanged, only containers of dest change. Refuted with sharing: an array merged with itself never ends; a dest that has a value in two places changes src."
  },
  {
   "property": "C41",
   "status": "proved",
   "theorems": [
    "C41_search",
    "C41_iff"
   ],
   "note": "For all values in memory, shared or not: found if and only if some nested object has the key, and then the value found is stored under it."
  },
  {
   "property": "C42",
   "status": "partial",
   "theorems": [
    "C42_array_partial",
    "C42_string_partial",
    "C42_absent_partial",
    "C42_kinds_refuted",
    "C42_string_refuted",
    "C42_self_refuted"
   ],
   "note": "Array fields: the code as it is. String and absent fields: if cee_str_mk(st, \"%s\", key) gives the key (see C38); an absent field becomes the value itself, not an array. Refuted: fields that are objects (NULL dereference), null, booleans or numbers (abort), strings with the standard va_list, and appending an array to itself (never ends)."
  },
  {
   "property": "C39",
   "status": "partial",
   "theorems": [
    "C39_path_partial",
    "C39_documented_partial",
    "C39_any_selector_partial",
    "C39_end_refuted",
    "C39_name_argument_refuted",
    "C39_number_refuted",
    "C39_index_refuted",
    "C39_statement_refuted"
   ],
   "note": "Proved: every well-formed path with names in the selector and indexes in the selector or as arguments selects what it leads to; :n means int64 and :s a string owned by the library (C39_documented_partial: the documented meaning for all other types). Every selector without *, not ending in . [ or : and without ten consecutive digits only reads the selector and returns NULL or a part of the value. Refuted: selectors ending in . [ or : read past the end; * for a name compares uninitialised bytes; doubles fail :n; an index of 2^31 is undefined."
  },
  {
   "property": "C43",
   "status": "partial",
   "theorems": [
    "C43_escape_partial",
    "C43_exact",
    "C43_control_refuted",
    "C43_statement_refuted",
    "C43_small_refuted"
   ],
   "note": "Proved for all strings without control characters other than \\b \\t \\n \\f \\r, with room for two bytes each. C43_exact says what the text is for all strings: other control characters produce \\u00 without its last two digits. The size of dest is ignored."
  },
  {
   "property": "C52",
   "status": "partial",
   "theorems": [
    "C52_int_partial",
    "C52_exact",
    "C52_statement_refuted"
   ],
   "note": "Integers outside the int range are cut to 32 bits and reported as success; C52_exact says what is given for all integers."
  },
  {
   "property": "C44",
   "status": "partial",
   "theorems": [
    "C44_bound_partial",
    "C44_no_value_refuted",
    "C44_no_info_refuted",
    "C44_message_refuted",
    "C44_unnamed_refuted",
    "C44_long_refuted"
   ],
   "note": "Proved for any SQLite (a parameter): if each named placeholder has a value (supplied, default, or zero value in an insert), exactly these are bound, or the statement is not run and the status gets an error; the error message is built with cee_str_mk (taken by value here, undefined as written: C44_message_refuted). Refuted: an entry without a value runs with NULL; no description, no check; unnamed parameters crash; a text over the limit runs with NULL."
  },
  {
   "property": "C53",
   "status": "partial",
   "theorems": [
    "C53_update_or_insert_partial",
    "C53_select_error_refuted"
   ],
   "note": "Proved: update on a row, insert on anything else, with all failures of these reported. Refuted: a failing select inserts."
  },
  {
   "property": "C54",
   "status": "partial",
   "theorems": [
    "C54_insert_partial",
    "C54_delete",
    "C54_update_if_exists",
    "C54_nothing_to_update",
    "C54_rowid_refuted",
    "C54_id_refuted",
    "C54_update_refuted"
   ],
   "note": "Proved for insert (the int that is the id modulo 2^32), delete and update_if_exists. Refuted: ids are cut to 32 bits, and given only with a status; update does not report a missing row; updated_rows counts all changes of the connection."
  },
  {
   "property": "C55",
   "status": "partial",
   "theorems": [
    "C55_finalized_partial",
    "C55_operations_partial",
    "C55_leak_refuted",
    "C55_exact"
   ],
   "note": "Proved when every parameter has an entry. Refuted: the unbound parameter leaves the statement open. C55_exact counts the open statements after every call."
  },
  {
   "property": "C45",
   "status": "partial",
   "theorems": [
    "C45_data_partial",
    "C45_error_partial",
    "C45_usage_refuted",
    "C45_null_refuted",
    "C45_stale_refuted",
    "C45_stops_refuted",
    "C45_kinds_refuted",
    "C45_data_refuted",
    "C45_info_partial",
    "C45_info_refuted",
    "C45_exact",
    "C45_exact_one"
   ],
   "note": "Proved for all objects, columns and fresh data when the columns take the values, and with a non-integer for an integer column. Refuted: null for a column that is not null is dropped silently; data once null stays null; the first error ends the work; other kinds for text columns and blobs are undefined, ints are cut to 32 bits. cee_json_to_bind_info is right for one member only: with two, all entries are those of one member. C45_exact says for every object, columns and data what the members, taken in some order, do to the data and the lists, up to the first complaint, or that it is undefined."
  },
  {
   "property": "C56",
   "status": "proved",
   "theorems": [
    "C56_compose"
   ],
   "note": "For all entries with non-empty column names."
  },
  {
   "property": "C57",
   "status": "partial",
   "theorems": [
    "C57_rows_partial",
    "C57_error_partial",
    "C57_fails_later_refuted",
    "C57_fails_later",
    "C57_open_refuted",
    "C57_array_status_refuted"
   ],
   "note": "Proved for statements that finish (any rows, flags, repeated columns) and for those that fail before the first row with no array as status. Refuted: failing after a row reads columns without a row (C57_fails_later: for every such statement); the failed statement stays open; an error with an array as status aborts."
  },
  {
   "property": "C58",
   "status": "partial",
   "theorems": [
    "C58_row_partial",
    "C58_error_partial",
    "C58_fails_later_refuted",
    "C58_fails_later"
   ],
   "note": "Proved for statements that finish, and for errors before the first row with an object or nothing as status. Refuted: failing after a row (C58_fails_later: for every such statement)."
  },
  {
   "property": "C59",
   "status": "partial",
   "theorems": [
    "C59_found_partial",
    "C59_inserts_partial",
    "C59_error_partial",
    "C59_column_refuted",
    "C59_column_exact"
   ],
   "note": "Proved: found, inserted (reporting the int that is the id modulo 2^32), failing select. Refuted: a row with a column called error is taken for an error; C59_column_exact says what happens for every such row and every status."
  },
  {
   "property": "C60",
   "status": "partial",
   "theorems": [
    "C60_next_int_partial",
    "C60_error",
    "C60_int_refuted",
    "C60_long_refuted"
   ],
   "note": "Proved for all columns and clauses, for what the code does: the first 127 bytes of the query are run, and the value counts modulo 2^32. Refuted: larger values are cut or overflow, longer queries are cut."
  },
  {
   "property": "C61",
   "status": "partial",
   "theorems": [
    "C61_history_partial",
    "C61_values",
    "C61_insert_refuted",
    "C61_concat_refuted",
    "C61_str_refuted",
    "C61_iterate_partial",
    "C61_iterate_refuted",
    "C61_insert_exact"
   ],
   "note": "Proved for all histories whose insertions are in range and which do not append the array to itself, with cee_str_mk giving its string, and for iterating non-empty arrays. Refuted: inserting out of range, appending an array to itself, appending a string with cee_str_mk as it is, the result of iterating an empty array. C61_insert_exact says what inserting does for every index out of range."
  },
  {
   "property": "C62",
   "status": "partial",
   "theorems": [
    "C62_generic_partial",
    "C62_error_refuted",
    "C62_template_refuted",
    "C62_str_refuted",
    "C62_data_refuted",
    "C62_exact"
   ],
   "note": "Proved for any operation and objects whose values their columns take, with cee_str_mk giving its string. Refuted: with a wrong value the operation runs all the same; an update template with nothing to update dereferences NULL (for all inputs); the string constructor; entries without data. C62_exact says for every object, columns and data (also repeated columns, wrong values and data used before) with what data and statements the operation is run and what the status gets, or that it is undefined."
  },
  {
   "property": "C63",
   "status": "partial",
   "theorems": [
    "C63_insert_partial",
    "C63_insert_refuted",
    "C63_update_or_insert_partial",
    "C63_update_if_exists_partial",
    "C63_update_partial",
    "C63_select_refuted"
   ],
   "note": "Proved for values that the columns take, a status that is asked for (insert), and something to update. Refuted: an insert without a status never returns, whatever it is given; selecting with an object aborts for every input with a status."
  },
  {
   "property": "C64",
   "status": "partial",
   "theorems": [
    "C64_numbers_partial",
    "C64_int_refuted",
    "C64_int_all_refuted",
    "C64_others"
   ],
   "note": "Proved for all values, with the int that is the integer modulo 2^32; all integers outside the int range are cut to 32 bits when read as an int, with success reported."
  },
  {
   "property": "C65",
   "status": "partial",
   "theorems": [
    "C65_text",
    "C65_text_safe",
    "C65_convert_partial",
    "C65_string_refuted",
    "C65_absent_refuted",
    "C65_statement_refuted"
   ],
   "note": "The scanner is exact for all texts whose number is in the 64-bit range (others are undefined in sscanf). Converting is proved for fields that are not strings; strings are never converted, as the type of the object is tested instead of that of the field, and a missing field is a NULL dereference: both for all inputs."
  },
  {
   "property": "C66",
   "status": "partial",
   "theorems": [
    "C66_first_partial",
    "C66_message_refuted",
    "C66_kind_refuted"
   ],
   "note": "Proved with a string constructor that gives its string. Refuted: with cee_str_mk as it is; something other than an object as status aborts."
  },
  {
   "property": "C67",
   "status": "partial",
   "theorems": [
    "C67_load_partial",
    "C67_load_sound",
    "C67_buffer",
    "C67_number_refuted",
    "C67_number_all_refuted",
    "C67_string_refuted",
    "C67_string_all_refuted",
    "C67_force_eof_refuted",
    "C67_path_refuted",
    "C67_save",
    "C67_round_trip_partial",
    "C67_round_trip_refuted"
   ],
   "note": "Proved for all valid texts except a number that ends the file, and soundness for all files that do not end inside a token; saving for all values within the depth of the printer (C33). Refuted: the block has no NUL, so a number or an unterminated string at the end of the file is read past the block, for all such files; force_eof is ignored; a missing file ends the program."
  },
  {
   "property": "C68",
   "status": "partial",
   "theorems": [
    "C68_merge_all_partial",
    "C68_va_list_refuted",
    "C68_statement_refuted",
    "C68_effects",
    "C68_failure",
    "C68_reload_partial",
    "C68_not_an_object_refuted",
    "C68_left_out_refuted",
    "C68_left_out_all_refuted",
    "C68_no_file_refuted"
   ],
   "note": "Proved for any number of files, the first with an object, with a string constructor that gives its string: the text of the merged value is written, and loads again as that value. Failures leave all files as they are. Refuted: with cee_str_mk as it is; a first file without an object aborts; a later file that is not an object is left out silently but named, for all files; no file at all reads past the array of names."
  },
  {
   "property": "C69",
   "status": "partial",
   "theorems": [
    "C69_insert_partial",
    "C69_closed",
    "C69_result_refuted",
    "C69_empty_refuted",
    "C69_columns_refuted",
    "C69_other_refuted",
    "C69_unquoted_refuted",
    "C69_va_list_refuted"
   ],
   "note": "Proved for any number of rows with fewer than 50 columns that are not null, with a string constructor that gives its string. Refuted: the result is 0 even if no row is stored, and was never set for an empty array; a row with 50 columns or more overruns an array, for all such rows; other values end the program; names are not quoted; with cee_str_mk as it is nothing is stored."
  },
  {
   "property": "C70",
   "status": "partial",
   "theorems": [
    "C70_join_partial",
    "C70_sent_exact",
    "C70_stops",
    "C70_object",
    "C70_int64_refuted",
    "C70_size_refuted",
    "C70_null_refuted",
    "C70_error_refuted",
    "C70_kind_refuted",
    "C70_va_list_refuted"
   ],
   "note": "Proved for any number of objects with parameters of type int, or text without a size, that are not set to null; without a key neither a column nor a member may be called error; with a string constructor that gives its string. Refuted: parameters of type int64 keep what is in the entry; a size or null in the entry stays; the name error ends the join; a member of another type than the parameter is not noticed; with cee_str_mk as it is nothing is joined. C70_sent_exact says which rows are joined for entries of all types, sizes and nulls."
  },
  {
   "property": "C71",
   "status": "proved",
   "theorems": [
    "C71_lists",
    "C71_others"
   ],
   "note": ""
  },
  {
   "property": "C72",
   "status": "partial",
   "theorems": [
    "C72_pointers_partial",
    "C72_find",
    "C72_flat_refuted",
    "C72_flat_all_refuted",
    "C72_row_refuted"
   ],
   "note": "Proved, for any number of searches, for tables that are arrays of pointers to rows that exist beforehand. Refuted for tables of elements, which the interface (that of POSIX) describes: the bytes of the elements are taken for a pointer (C72_flat_all_refuted: for all tables and keys)."
  },
  {
   "property": "C73",
   "status": "partial",
   "theorems": [
    "C73_rows_partial",
    "C73_rows_error_partial",
    "C73_one_partial",
    "C73_one_error",
    "C73_new_refuted",
    "C73_kinds_refuted",
    "C73_none_refuted",
    "C73_column_refuted",
    "C73_replaced_refuted",
    "C73_rows_exact",
    "C73_one_exact"
   ],
   "note": "Proved when the status is an object and the name is new or has an array or a text (all rows), and when there is a row without a column error (one row). Refuted: without a status object the rows are stored without the name; no row stores NULL as a member, which is then followed; a row with a column error, or an error, replaces the status object. C73_rows_exact and C73_one_exact say what happens for every status of any kind, without a row and with a column error. Texts that are made with cee_str_mk are given by value (C12)."
  },
  {
   "property": "C74",
   "status": "partial",
   "theorems": [
    "C74_paths_partial",
    "C74_settings_partial",
    "C74_overrun_refuted",
    "C74_settings_overrun_refuted"
   ],
   "note": "Proved for buffers in which all but the last item fit. Refuted for all others: what is left of the size wraps around, and bytes behind the buffer are written."
  },
  {
   "property": "C75",
   "status": "partial",
   "theorems": [
    "C75_home_partial",
    "C75_exact",
    "C75_long_refuted",
    "C75_inside_refuted"
   ],
   "note": "Proved for paths that have $HOME at the start if at all and are shorter than 128 bytes afterwards; C75_exact says what happens for all paths. Refuted otherwise: longer ones are read and written behind the arrays; with $HOME elsewhere the first five bytes are lost."
  },
  {
   "property": "C76",
   "status": "partial",
   "theorems": [
    "C76_made_partial",
    "C76_plain_partial",
    "C76_descriptor_partial",
    "C76_dots_refuted",
    "C76_file_refuted",
    "C76_descriptor_refuted",
    "C76_exact"
   ],
   "note": "Proved for paths that begin with directories that are there and go on with ordinary names. Refuted: . or .. behind a missing directory ends the program; a file at the path is taken for a directory, one above it ends the program; no descriptor is stored for a directory that is there. C76_exact says what happens for every path."
  },
  {
   "property": "C77",
   "status": "partial",
   "theorems": [
    "C77_exact",
    "C77_init_partial",
    "C77_log_refuted",
    "C77_script_refuted",
    "C77_steps_refuted",
    "C77_long_refuted"
   ],
   "note": "Proved for names that fit into the arrays and a directory of ordinary names, with all rows of the log; exact for missing scripts (passed over) and failing ones (the program ends). Refuted: nothing is logged if the directory is not there; a missing create script makes an empty new database; one call migrates by one step only; names longer than 127 bytes are cut to the name of another file."
  },
  {
   "property": "C78",
   "status": "partial",
   "theorems": [
    "C78_backup_partial",
    "C78_open_partial",
    "C78_attach_partial",
    "C78_backup_refuted",
    "C78_long_refuted",
    "C78_backup_exact",
    "C78_attach_exact"
   ],
   "note": "Proved for names that fit into the arrays, with the results that the code gives. Refuted: the result is true also if the command fails; the connection to the log stays open if there is no database; a command that is too long is cut and writes to another file; C78_backup_exact and C78_attach_exact say so for all commands and statements."
  },
  {
   "property": "C79",
   "status": "partial",
   "theorems": [
    "C79_only_the_value_partial",
    "C79_any_text",
    "C79_repeated_name_refuted",
    "C79_failure_refuted"
   ],
   "note": "Proved for texts in which no object repeats a name; for any text the value, the error line and the objects that were there before are right, and what is lost are whole values. Refuted: a value replaced by a repeated name is never deleted; a parse that fails leaves the unfinished value and the tuples of its stack behind."
  },
  {
   "property": "C80",
   "status": "proved",
   "theorems": [
    "C80_delete",
    "C80_history",
    "C80_all_deleted"
   ],
   "note": "The number of nested calls a deletion may make is a parameter that must be at least five times the nesting."
  },
  {
   "property": "C81",
   "status": "partial",
   "theorems": [
    "C81_history_partial",
    "C81_all_deleted_partial",
    "C81_remove_refuted",
    "C81_rename_refuted",
    "C81_str_mk_refuted"
   ],
   "note": "Proved with a cee_str_mk that works (C12): everything is so except for strings, of which exactly one stays behind for each name removed or renamed. Refuted: cee_json_object_remove never deletes the string of the name; cee_json_object_rename never deletes the old string, or the new one if the old name is missing; with cee_str_mk as it is, setting a field is undefined. Programs that put one value into two places are not covered."
  },
  {
   "property": "C82",
   "status": "partial",
   "theorems": [
    "C82_history_partial",
    "C82_snprint_partial",
    "C82_deep_refuted",
    "C82_str_refuted"
   ],
   "note": "Proved with a cee_str_mk that works (C12), for values of at most 498 levels below the outermost one (127 for the readable text), except for the strings left over by removing and renaming (C81). Refuted: when the stack of 500 is full the printer stops and deletes only the stack, so the tuples and counters of all levels (at least 1000 objects for a value of 500 levels) stay behind. The second state of cee_json_dprintf is not covered."
  },
  {
   "property": "C83",
   "status": "partial",
   "theorems": [
    "C83_lexical_partial",
    "C83_nothing_partial",
    "C83_nothing_refuted"
   ],
   "note": "Proved for programs that do not bind a name to NULL. Refuted for those: the name is then looked up further out (as in C19); C83_nothing_partial says what they compute. A NULL map of variables is not covered here (C19)."
  },
  {
   "property": "C84",
   "status": "partial",
   "theorems": [
    "C84_history_partial",
    "C84_all_gone_partial",
    "C84_again_refuted",
    "C84_remove_refuted",
    "C84_str_mk_refuted"
   ],
   "note": "Proved for values in fewer than 65536 places (C25), with a cee_str_mk that works (C12), and for values not put under a name where they are already: everything is so except that one string stays behind for each name removed. Refuted: a value put again under the name it has is counted twice and never deleted; cee_json_object_remove never deletes the string of the name; with cee_str_mk as it is, setting a field is undefined. Values taken out of their last place have count 0 and stay until deleted, as in the code."
  },
  {
   "property": "C85",
   "status": "partial",
   "theorems": [
    "C85_block_mk_partial",
    "C85_block_mk_e_partial",
    "C85_block_mk_refuted",
    "C85_wrap_all_refuted",
    "C85_string_as_block_refuted",
    "C85_empty_refuted"
   ],
   "note": "Proved for sizes below 2^64 - 80. Refuted: for all larger sizes the allocation is too small and is overrun; cee_block_size of any string, or of the block that cee_block_empty gives, reads before the object, because the header of a string is 8 bytes shorter."
  },
  {
   "property": "C86",
   "status": "partial",
   "theorems": [
    "C86_strn_partial",
    "C86_strn_bytes",
    "C86_strn_refuted",
    "C86_end_refuted",
    "C86_end_exact",
    "C86_ncat_refuted"
   ],
   "note": "Proved: if the bytes given end with a NUL, it is a string and any later operations work as in C13. The bytes are always the first ones of the result, but no NUL follows them, so strlen of the result is never defined otherwise (C86_strn_bytes, for all texts). Refuted: cee_str_end runs over the end for every array without a NUL; cee_str_ncat always gives NULL."
  },
  {
   "property": "C87",
   "status": "partial",
   "theorems": [
    "C87_iter_partial",
    "C87_calls",
    "C87_fails_later_refuted"
   ],
   "note": "Proved for statements that do not fail; C87_calls says what happens for all others that give a row. Refuted: when a statement fails after a row, the function is called once more although there is no row, and then the statement is run again."
  },
  {
   "property": "C88",
   "status": "partial",
   "theorems": [
    "C88_programs_partial",
    "C88_all_released",
    "C88_pointer_refuted",
    "C88_moved_refuted",
    "C88_create_again_refuted",
    "C88_search_first_refuted"
   ],
   "note": "Proved for programs that create a table only if it is not there, search it only if it is there, and use a pointer only as long as not more than max(6, 3/4 of the size asked for) keys were entered since. Refuted: the seventh key moves the entries and pointers dangle (C88_moved_refuted: after any growth); creating a table again loses the first one, and searching before creating dereferences NULL, for all programs."
  },
  {
   "property": "C89",
   "status": "partial",
   "theorems": [
    "C89_statements_exact",
    "C89_pragma_exact",
    "C89_init_partial",
    "C89_attach_partial",
    "C89_detach_partial",
    "C89_pragma_partial",
    "C89_new_op",
    "C89_init_refuted",
    "C89_attach_cut_refuted",
    "C89_attach_quote_refuted",
    "C89_attach_memory_refuted",
    "C89_detach_quote_refuted",
    "C89_pragma_refuted"
   ],
   "note": "Proved when everything fits and needs no quoting; copies of operations always. Refuted: a statement that does not fit is cut and run, so that a database is attached under another name; quotes in names are not doubled; nothing can be attached to a database in memory (strrchr gives NULL); a pragma beyond int is cut and errors look like 0. C89_statements_exact and C89_pragma_exact say what happens for all names and sizes; the refutations of cut statements and of databases in memory are for all names."
  }
 ]
}
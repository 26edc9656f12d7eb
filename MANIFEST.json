{
 "claims": [
  {
   "property": "C01",
   "status": "proved",
   "theorems": [
    "C01_unsigned_varint_roundtrip",
    "C01_unsigned_varint_format",
    "C01_unsigned_varint_prefix_free"
   ],
   "note": ""
  },
  {
   "property": "C02",
   "status": "proved",
   "theorems": [
    "C02_signed_varint_roundtrip"
   ],
   "note": ""
  },
  {
   "property": "C03",
   "status": "proved",
   "theorems": [
    "C03_discard_exact",
    "C03_discard_tagged_exact",
    "C03_copy_exact",
    "C03_discard_terminates"
   ],
   "note": ""
  },
  {
   "property": "C04",
   "status": "proved",
   "theorems": [
    "C04_serialize_succeeds",
    "C04_serialize_well_formed",
    "C04_roundtrip_immutable",
    "C04_roundtrip"
   ],
   "note": "For the type grammar of Serial_Model.v: bool, integers, floats (as bit patterns), None, value types, str, bytes, TupleOf, ListOf, Tuple/NamedTuple, OneOf, Alternative, ConstDict, Dict, Set and recursive named types; Dict and Set tables as their item lists in slot order."
  },
  {
   "property": "C05",
   "status": "proved",
   "theorems": [
    "C05_aliasing_preserved"
   ],
   "note": ""
  },
  {
   "property": "C06",
   "status": "proved",
   "theorems": [
    "C06_added_fields",
    "C06_dropped_fields",
    "C06_nested_dropped_alias_refuted",
    "C06_inline_plain_data_refuted"
   ],
   "note": "For the fields of the tuple that is serialized. For tuples nested in other values the corresponding statement is refuted twice (an object first reached through a dropped field; lists of plain data written inline)."
  },
  {
   "property": "C07",
   "status": "proved",
   "theorems": [
    "C07_blocks",
    "C07_int_list_roundtrip",
    "C07_tuple_of_int_roundtrip"
   ],
   "note": ""
  },
  {
   "property": "C08",
   "status": "proved",
   "theorems": [
    "C08_output",
    "C08_no_fault",
    "C08_compressed_once",
    "C08_no_deadlock",
    "C08_no_livelock",
    "C08_fair_schedules"
   ],
   "note": "For any number of serializing threads and compression threads (at least one for termination), any writes and block size, any interleaving of the sections under the mutex, any choice of the next block, spurious wake-ups included. LZ4 is an arbitrary function; its errors in a worker and out of memory are not modelled."
  },
  {
   "property": "C09",
   "status": "proved",
   "theorems": [
    "C09_dict_is_a_map",
    "C09_laws_of_the_map",
    "C09_needs_hash_agreement"
   ],
   "note": "For any key type whose equality is an equivalence respected by a 32-bit hash, and any mix of interpreted and compiled operations, as long as the Dict never has more than 2^28 keys (C10_more_keys_refuted shows that limit is real). Keys and values are abstract; a comparison that raises is not modelled."
  },
  {
   "property": "C10",
   "status": "proved",
   "theorems": [
    "C10_every_operation_finishes",
    "C10_probe_visits_every_position",
    "C10_more_keys_refuted"
   ],
   "note": "Within 2^28 keys; with one more the next resize overflows a 32-bit size (C10_more_keys_refuted)."
  },
  {
   "property": "C11",
   "status": "proved",
   "theorems": [
    "C11_iteration",
    "C11_assignments_do_not_disturb",
    "C11_size_change_raises"
   ],
   "note": "Includes loops whose body assigns to existing keys, and the error when the size changes during a loop."
  },
  {
   "property": "C12",
   "status": "proved",
   "theorems": [
    "C12_rebuilt_table",
    "C12_repeated_keys_refuted"
   ],
   "note": "For distinct keys; repeated keys in a stream are kept twice (C12_repeated_keys_refuted)."
  },
  {
   "property": "C13",
   "status": "partial",
   "theorems": [
    "C13_programs_partial",
    "C13_compiled_and_interpreted_agree",
    "C13_duplicates_after_conversion_refuted",
    "C13_dict_display_duplicates_refuted"
   ],
   "note": "Proved for every program of constructions, + and - on either side (and the sides agree), with std::sort any function meeting the C++ contract, when the converted keys of each source mapping are different. Otherwise duplicates are kept: refuted for Python keys that convert to the same key and for compiled dict displays."
  },
  {
   "property": "C14",
   "status": "proved",
   "theorems": [
    "C14_interpreter_order",
    "C14_compiled_order",
    "C14_same_order_compiled_refuted",
    "C14_equal_iff_same_items",
    "C14_equal_hash",
    "C14_keys_view_equality",
    "C14_keys_view_inequality_refuted"
   ],
   "note": "For total orders on keys and values. Compiled code and the interpreter each have a total order but not the same one (C14_same_order_compiled_refuted); != of key views is refuted."
  },
  {
   "property": "C15",
   "status": "proved",
   "theorems": [
    "C15_sorted_dict_is_a_map",
    "C15_setitem",
    "C15_delitem",
    "C15_contains",
    "C15_first_last"
   ],
   "note": "For every strict weak order (so also total orders) as comparator; a key equivalent to a stored one keeps the stored key and replaces the value."
  },
  {
   "property": "C16",
   "status": "proved",
   "theorems": [
    "C16_iteration"
   ],
   "note": ""
  },
  {
   "property": "C17",
   "status": "partial",
   "theorems": [
    "C17_depth_linear_refuted",
    "C17_depth_logarithmic_refuted",
    "C17_depth_at_most_half_partial"
   ],
   "note": "Refuted: inserting the smallest and the largest missing key in turn gives depth n/2. The true bound, (n+3)/2, is proved."
  },
  {
   "property": "C18",
   "status": "proved",
   "theorems": [
    "C18_sort",
    "C18_any_seed",
    "C18_sort_by_key",
    "C18_sorted_copy",
    "C18_key_finer_than_equality_refuted"
   ],
   "note": "For any strict weak order and any == that only identifies values the order does not distinguish; without that proviso the property fails (C18_key_finer_than_equality_refuted)."
  },
  {
   "property": "C19",
   "status": "partial",
   "theorems": [
    "C19_searchSorted_partial",
    "C19_missing_is_minus_one_refuted"
   ],
   "note": "The index of an occurrence, or the insertion point, is proved; the documented -1 never happens (refuted)."
  },
  {
   "property": "C20",
   "status": "proved",
   "theorems": [
    "C20_atomic",
    "C20_first_in_first_out"
   ],
   "note": "For any number of threads, any programs of get, getNonblocking, getMany, put, putMany, peek, len and any interleaving of the lock operations. Not modelled: interrupts, out of memory, and a list passed to putMany that another thread changes during the call."
  },
  {
   "property": "C21",
   "status": "proved",
   "theorems": [
    "C21_no_fault",
    "C21_no_deadlock",
    "C21_no_livelock",
    "C21_fair_schedules",
    "C21_everybody_finishes"
   ],
   "note": "No fault, no deadlock, no livelock, and every waiting reader is served under every fair schedule; same model as C20."
  },
  {
   "property": "C22",
   "status": "proved",
   "theorems": [
    "C22_result",
    "C22_pmap_is_map",
    "C22_no_fault",
    "C22_at_most_once",
    "C22_no_deadlock",
    "C22_no_livelock",
    "C22_fair_schedules"
   ],
   "note": "For any number of calling threads and executors (at least one for termination), nested calls, every cpu count and granularity, and any interleaving of the queue operations. The queues are atomic in this model, as C20 and C21 justify; mapped functions are arbitrary computations that return, raise or call pmap themselves, without side effects on each other."
  },
  {
   "property": "C23",
   "status": "proved",
   "theorems": [
    "C23_civil_of_days",
    "C23_days_of_civil",
    "C23_consecutive_days",
    "C23_leap_year",
    "C23_day_of_year"
   ],
   "note": "Unbounded integers; the day-of-era arithmetic is proved within one 400-year era and lifted by the period."
  },
  {
   "property": "C24",
   "status": "partial",
   "theorems": [
    "C24_weekday_partial",
    "C24_weekday_exactly_when",
    "C24_weekday_refuted",
    "C24_nth_weekday_partial",
    "C24_nth_weekday_refuted"
   ],
   "note": "Refuted as stated: before 1969-12-27 weekday() is out of range on every day but Saturday (it is 7 too large), and get_nth_dow_of_month can land in the previous month. C24_weekday_exactly_when characterises the days where it is right; from 1969-12-27 on it is proved."
  },
  {
   "property": "C25",
   "status": "partial",
   "theorems": [
    "C25_next",
    "C25_previous",
    "C25_before_year_zero_raises",
    "C25_nextMonthStart",
    "C25_lastDayOfMonth",
    "C25_daysInMonth",
    "C25_daysUntilEndOfMonth",
    "C25_daysUntilEndOfYear",
    "C25_nextMonth",
    "C25_nextYear",
    "C25_nextWeekday",
    "C25_last_weekday_of_month",
    "C25_quarterOfYear",
    "C25_lastWeekday_partial",
    "C25_lastWeekday_refuted"
   ],
   "note": "All navigation functions proved except lastWeekday, which is refuted: it subtracts (weekday - self.weekday()) % 7 and lands on the wrong weekday unless the date already is on it."
  },
  {
   "property": "C26",
   "status": "partial",
   "theorems": [
    "C26_fixed_offset",
    "C26_fixed_offset_back",
    "C26_dst_roundtrip",
    "C26_dst_reading",
    "C26_rule_dates",
    "C26_skipped_hour_rejected",
    "C26_switch_roundtrip",
    "C26_fold_rejected_refuted"
   ],
   "note": "Round trips proved for fixed offsets, one-hour daylight savings with the rule families used by the code, and single switches, over whole seconds. Refuted part: the fold flag is accepted for wall-clock times that do not repeat. Floating-point seconds are not modelled."
  },
  {
   "property": "C27",
   "status": "partial",
   "theorems": [
    "C27_format",
    "C27_round_trip",
    "C27_round_trip_zone",
    "C27_instant",
    "C27_isoformat",
    "C27_noon_refuted",
    "C27_offset_refuted",
    "C27_weekday_refuted",
    "C27_long_year_refuted",
    "C27_percent_refuted"
   ],
   "note": "For every date of the years 0 to 9999 with whole seconds: the text is made of fixed-width fields and names, and reading it with the same format (or isoformat's text without one) gives the same date and time in UTC or in the zone given. Refuted: noon with %I and %p, %z and %Z outside UTC, weekdays before 1969-12-27, years beyond 9999, %%. Fractions of a second are not modelled; the formatter drops them."
  },
  {
   "property": "C28",
   "status": "partial",
   "theorems": [
    "C28_interpreted_partial",
    "C28_compiled_partial",
    "C28_compiled_and_interpreted_partial",
    "C28_mixed_types",
    "C28_mixed_types_partial",
    "C28_rshift_refuted",
    "C28_mod_refuted",
    "C28_floordiv_refuted",
    "C28_lshift_refuted",
    "C28_mixed_types_refuted"
   ],
   "note": "Exact characterisation for interpreter and compiled code of where the result is Python's (iff theorems, one operand type and both ways); the exceptions are refutations of the full statement: >> of negative numbers rounds toward zero, shifts by 64 and more, the least 64-bit integer modulo a negative number, compiled least // -1. Operands of two types: ring and bit operators in full, the others when the promoted type contains both operands. / and ** are floating point and not modelled."
  },
  {
   "property": "C29",
   "status": "partial",
   "theorems": [
    "C29_tables_agree",
    "C29_promotion",
    "C29_result_types_partial",
    "C29_power_refuted"
   ],
   "note": "Both tables and all operators for all pairs; refuted only for a power of two ints, which is a float in compiled code and an int in Python."
  },
  {
   "property": "C30",
   "status": "partial",
   "theorems": [
    "C30_upcasts",
    "C30_lossless_partial",
    "C30_lossless_refuted",
    "C30_python_int",
    "C30_python_int_refuted"
   ],
   "note": "Upcasts preserve a number iff the target type contains it; all values survive except in the four upcasts from 32-bit integers to Float32 and from 64-bit integers to float, each of which is refuted. A Python int beyond 64 bits is masked (refuted). Rounding is Coq's SpecFloat (round to nearest, ties to even)."
  },
  {
   "property": "C31",
   "status": "partial",
   "theorems": [
    "C31_interpreted_binding_partial",
    "C31_compiled_binding_partial",
    "C31_positional_only_refuted",
    "C31_positional_only_keywords_refuted",
    "C31_nul_in_keyword_refuted",
    "C31_keyword_only_refuted"
   ],
   "note": "Interpreter and compiled code bind exactly what Python binds, for every function without positional-only and keyword-only parameters and keyword names without NUL characters; each exception is refuted. Interpreted statement for unannotated parameters (with annotations: C51). getfullargspec and the call of the resulting Python function are Python's."
  },
  {
   "property": "C32",
   "status": "partial",
   "theorems": [
    "C32_admits_the_union_partial",
    "C32_only_bools_are_lost",
    "C32_bool_constant_refuted",
    "C32_order_does_not_matter",
    "C32_no_option_within_another_partial",
    "C32_no_option_within_another_refuted",
    "C32_fails_only_beyond_255_types",
    "C32_too_many_constants_refuted"
   ],
   "note": "Order independence holds in full. The merged type admits exactly the union of the inputs unless a bool constant meets int (Value(True) is swallowed by int: refuted). No option lies within another when two different types are given, except a concrete alternative beside its Alternative (refuted, as is the case of a single redundant OneOf, which is returned unchanged). Merging fails only when more than 255 unrelated options remain (it does: refuted). Types outside the listed kinds are opaque and unrelated to each other."
  },
  {
   "property": "C33",
   "status": "partial",
   "theorems": [
    "C33_edges",
    "C33_errors",
    "C33_levels",
    "C33_topological_sort",
    "C33_creates_cycle",
    "C33_creates_cycle_self_refuted"
   ],
   "note": "Edges, levels, topologicalSort, errors and createsCycle of different nodes are proved for every history of calls and every set iteration order. createsCycle(a, a) answers False although the edge is a cycle (C33_creates_cycle_self_refuted). Python's recursion limit is not modelled."
  },
  {
   "property": "C34",
   "status": "partial",
   "theorems": [
    "C34_responses",
    "C34_every_marking_is_handed_out",
    "C34_priority_partial",
    "C34_priority_when_fresh",
    "C34_priority_refuted",
    "C34_unknown_function_refuted"
   ],
   "note": "Every response of every history is right, and draining hands out exactly the outstanding functions, each once. Priority: the handed-out function had some marking of at least the priority of every outstanding one; that this marking is outstanding is refuted in general (stale entries, C34_priority_refuted) and proved for functions whose markings are all outstanding."
  },
  {
   "property": "C35",
   "status": "partial",
   "theorems": [
    "C35_equal_values_same_hash_partial",
    "C35_hash_is_stable",
    "C35_slice_of_wide_string_refuted",
    "C35_list_hash_after_append_refuted",
    "C35_held_instances_refuted",
    "C35_nan_refuted"
   ],
   "note": "For every first-order type (None, bool, integers, floats, str, bytes, TupleOf, ListOf, Tuple, NamedTuple, OneOf, recursive Alternatives, instances by identity): equal values hash equal if they contain no NaN and no held class, strings are stored at minimal width and remembered hashes are current; each condition is refuted otherwise (compiled slices of wide strings, a ListOf hashed before append, held classes, NaN). User-defined __eq__ and __hash__ are not modelled; ConstDict is C14."
  },
  {
   "property": "C36",
   "status": "partial",
   "theorems": [
    "C36_order_of_meanings_partial",
    "C36_equality_of_meanings_partial",
    "C36_order_laws_partial",
    "C36_nan_equals_everything_refuted",
    "C36_two_empty_bytes_refuted",
    "C36_instances_have_no_order_refuted"
   ],
   "note": "For every first-order type without NaN, including recursive Alternatives: the six operators answer, obey the laws of a total order, and the order is the dictionary order of the contents. Excepted and refuted: class instances raise TypeError on ordering; an empty bytes object or string that is not the null pointer (from join in compiled code) differs from the empty one; NaN equals everything. ConstDict is C14."
  },
  {
   "property": "C37",
   "status": "partial",
   "theorems": [
    "C37_history_partial",
    "C37_operation_partial",
    "C37_reverse",
    "C37_interpreted_reserve_refuted",
    "C37_resize_refuted",
    "C37_big_index_refuted",
    "C37_compiled_append_own_refuted",
    "C37_compiled_append_own_room",
    "C37_huge_refuted"
   ],
   "note": "For every history in both modes, elements of any type up to 32768 bytes and lists of up to 1717986917 elements: refinement of Python lists on the level of memory cells, with in-bounds accesses. Excepted and refuted: negative resize; negative reserve in the interpreter; indices beyond 64 bits; in compiled code, appending an own element passed by pointer (and extending by itself) on a full list, and slices with bounds beyond 2^61; longer lists. Conversion of arguments, reference counts of elements and exceptions in element code are not modelled. ListOf has no insert and no user-visible reverse."
  },
  {
   "property": "C38",
   "status": "partial",
   "theorems": [
    "C38_date_constructor_partial",
    "C38_date_constructor_refuted"
   ],
   "note": "Refuted for negative month and day numbers, which the constructor treats as absent; proved for non-negative month and day."
  },
  {
   "property": "C39",
   "status": "proved",
   "theorems": [
    "C39_date_order",
    "C39_date_order_lex",
    "C39_datetime_order"
   ],
   "note": ""
  },
  {
   "property": "C40",
   "status": "partial",
   "theorems": [
    "C40_range_days",
    "C40_range_months",
    "C40_range_years",
    "C40_reversed_refuted"
   ],
   "note": "Forward ranges proved for all four step kinds; reversed ranges refuted (end included, start excluded)."
  },
  {
   "property": "C41",
   "status": "partial",
   "theorems": [
    "C41_validate_partial",
    "C41_validate_refuted"
   ],
   "note": "Every well-formed message is accepted and everything accepted is well formed except a lone end marker, which is also accepted (refuted)."
  },
  {
   "property": "C42",
   "status": "partial",
   "theorems": [
    "C42_added_options",
    "C42_added_alternatives",
    "C42_dropped_option_refuted"
   ],
   "note": "Added options proved; a missing option is refuted: its content is left in the stream and taken for the fields that follow."
  },
  {
   "property": "C43",
   "status": "partial",
   "theorems": [
    "C43_terminates_partial",
    "C43_out_of_bounds_refuted"
   ],
   "note": "Termination (with progress) proved for every byte string; memory safety is refuted by three concrete corrupt messages."
  },
  {
   "property": "C44",
   "status": "partial",
   "theorems": [
    "C44_compiled_and_interpreted_agree_partial"
   ],
   "note": "The two sets of operations agree step by step for keys on which compiled and interpreted hashing agree; C53 shows the keys on which they do not."
  },
  {
   "property": "C45",
   "status": "partial",
   "theorems": [
    "C45_sets_are_sets_partial",
    "C45_intersection_update_partial",
    "C45_intersection_update_refuted",
    "C45_difference_update_of_itself_refuted",
    "C45_compiled_intersection_update_of_itself_refuted",
    "C45_compiled_union_of_nothing_refuted",
    "C45_isdisjoint_of_itself_refuted"
   ],
   "note": "Proved for all programs except the uses excluded by the predicate [plain], each of which is refuted: interpreted s.intersection_update(t) for two Sets (undefined behaviour when the items are compressed during the walk; proved when they are not), difference_update of a Set with itself through an alias or in compiled code, compiled intersection_update of a Set with itself, compiled union()/intersection()/difference() without arguments, interpreted s.isdisjoint(s). Compiled methods given non-Set arguments are not modelled."
  },
  {
   "property": "C46",
   "status": "partial",
   "theorems": [
    "C46_superset_of_builtin_partial",
    "C46_equal_to_builtin_refuted",
    "C46_equality_is_one_common_element"
   ],
   "note": ">= and > proved; ==, != , <= and < refuted, and == characterised: equal sizes and one common element."
  },
  {
   "property": "C47",
   "status": "partial",
   "theorems": [
    "C47_equality_of_dicts",
    "C47_equality_with_python_dict_partial",
    "C47_equality_with_python_dict_refuted",
    "C47_equality_of_keys_is_of_sizes",
    "C47_equality_of_keys_refuted",
    "C47_membership_in_views"
   ],
   "note": "Equality of Dicts and membership in views proved; equality with a Python dict proved when converted keys stay different and refuted otherwise; equality of keys() views refuted (it only compares sizes, which is proved)."
  },
  {
   "property": "C48",
   "status": "partial",
   "theorems": [
    "C48_dict_of_mapping_partial",
    "C48_dict_of_mapping_refuted"
   ],
   "note": "Proved when the converted keys are different; otherwise the Dict's handle is overwritten (refuted)."
  },
  {
   "property": "C49",
   "status": "proved",
   "theorems": [
    "C49_uncompressed",
    "C49_transparent",
    "C49_megabytes",
    "C49_threads",
    "C49_any_data"
   ],
   "note": "For every reader that can be described as a (finite) decision tree of read_bytes and canConsume calls. LZ4 is assumed to give back what it was given, in frames below 4 GB."
  },
  {
   "property": "C50",
   "status": "partial",
   "theorems": [
    "C50_comparison_partial",
    "C50_comparison_refuted",
    "C50_equality"
   ],
   "note": "Holds unless a signed type meets an unsigned type at least as wide; refuted for each such pair of types. Comparison with floats is not modelled."
  },
  {
   "property": "C51",
   "status": "partial",
   "theorems": [
    "C51_first_accepting_overload_runs_partial",
    "C51_compiled_choice_partial"
   ],
   "note": "For all overloads without positional-only parameters and all conversion functions, on the assumption that pyValCouldBeOfType never rules out a conversion that would succeed; for compiled code also that the compiler's static answers are right. Those functions are not modelled."
  },
  {
   "property": "C52",
   "status": "partial",
   "theorems": [
    "C52_equality_partial",
    "C52_order_partial",
    "C52_bytes_order_refuted",
    "C52_string_order_refuted",
    "C52_nan_order_refuted",
    "C52_unordered_refuted",
    "C52_big_int_refuted",
    "C52_precision_refuted"
   ],
   "note": "Proved for every typed container and every Python value: == and != answer what Python answers wherever integers that meet can be compared exactly in C, and the orderings (including TypeErrors) do too where no NaN, and no str, bytes or None that faces something else, is involved; in both operand orders. Refuted by witnesses: str and bytes elements are ordered backwards, NaN elements answer True to >=, None and str elements are ordered against anything, ints beyond 64 bits are reduced, ints beyond 2^53 lose precision against floats. Not modelled: Alternatives, classes, Dict, Set and ConstDict as elements."
  },
  {
   "property": "C53",
   "status": "partial",
   "theorems": [
    "C53_compiled_hash_agrees_partial",
    "C53_element_hash_minus_one_refuted",
    "C53_empty_tuple_refuted",
    "C53_constant_option_refuted"
   ],
   "note": "Agreement for all values without an empty TupleOf, an element of hash -1 in a TupleOf or ListOf, constant options of a OneOf or held classes outside Alternatives; each is refuted. ConstDict keys and user-defined __hash__ are not modelled."
  },
  {
   "property": "C54",
   "status": "partial",
   "theorems": [
    "C54_interpreted",
    "C54_compiled_partial",
    "C54_zero_step",
    "C54_compiled_empty_tuple_refuted",
    "C54_compiled_big_step_refuted",
    "C54_compiled_big_bounds_refuted"
   ],
   "note": "Interpreted slices are Python's for all integers. Compiled slices are for bounds and steps up to 2^61, except empty slices of a TupleOf, which store through a null pointer (refuted, as are overflowing steps and bounds)."
  },
  {
   "property": "C55",
   "status": "partial",
   "theorems": [
    "C55_iso_partial",
    "C55_iso_date",
    "C55_iso_zone_partial",
    "C55_written_partial",
    "C55_west_refuted",
    "C55_noon_refuted",
    "C55_zone_refuted",
    "C55_date_offset_refuted",
    "C55_no_midnight_refuted"
   ],
   "note": "All ISO dates, times and eastern offsets, and nine forms of written dates with 12 and 24 hour clocks, for every date and time. Refuted by witnesses: western offsets, noon with pm, zones behind a blank or a written date, an offset behind a bare date, zones without a midnight that day. The names of pytz are assumed to contain a capital letter. Fractions of a second are not modelled."
  },
  {
   "property": "C56",
   "status": "partial",
   "theorems": [
    "C56_format",
    "C56_format_zone",
    "C56_parse_partial",
    "C56_parse_zone_partial",
    "C56_eight_digits_refuted",
    "C56_literals_refuted",
    "C56_bad_time_refuted"
   ],
   "note": "For every text and format: the answer is ValueError or an existing date and time in a known zone. Exceptions: IndexError for eight digits that are no date (refuted), and the directives %Z and %z with a given zone raise another error. Refuted as checks of form: literals of the format are not compared, trailing text is ignored, malformed times are read as midnight."
  },
  {
   "property": "C57",
   "status": "partial",
   "theorems": [
    "C57_bytes_find",
    "C57_bytes_rfind",
    "C57_bytes_index",
    "C57_bytes_single",
    "C57_bytes_count",
    "C57_bytes_prefix_suffix",
    "C57_bytes_contains",
    "C57_str_find",
    "C57_str_index",
    "C57_str_count_partial",
    "C57_str_count_of_empty_refuted",
    "C57_str_prefix_suffix",
    "C57_str_contains",
    "C57_answers_are_determined"
   ],
   "note": "Complete for bytes and str with arbitrary bounds, except str.count of the empty text in an empty text, which answers 0 instead of 1 (refuted). Lengths are assumed to fit the machine integers."
  },
  {
   "property": "C58",
   "status": "partial",
   "theorems": [
    "C58_bytes_split_partial",
    "C58_bytes_split_of_empty_refuted",
    "C58_str_split",
    "C58_empty_separator",
    "C58_bytes_words_partial",
    "C58_bytes_words_limited_refuted",
    "C58_str_words_partial",
    "C58_str_words_of_blank_refuted",
    "C58_bytes_splitlines",
    "C58_str_splitlines",
    "C58_lines_give_text_back",
    "C58_join",
    "C58_join_inverts_split",
    "C58_bytes_partition",
    "C58_str_partition",
    "C58_answers_are_determined"
   ],
   "note": "Separators: complete, except an empty bytes value with the limit 0 (refuted). Whitespace: complete for bytes without a limit or with 0 and for str except a blank text with the limit 0; limited splits of bytes keep whitespace Python drops (refuted). Lines, join, partitions and 'join inverts split' are complete. The table of whitespace code points is a parameter."
  },
  {
   "property": "C59",
   "status": "partial",
   "theorems": [
    "C59_bytes_replace",
    "C59_str_replace",
    "C59_bytes_strip",
    "C59_str_strip",
    "C59_answers_are_determined",
    "C59_bytes_just",
    "C59_str_just",
    "C59_bytes_center_partial",
    "C59_str_center_partial",
    "C59_center_of_odd_width_refuted",
    "C59_center_is_balanced",
    "C59_str_center_is_balanced",
    "C59_fill_is_one_element",
    "C59_expandtabs",
    "C59_zfill_partial",
    "C59_zfill_of_lowest_width_refuted"
   ],
   "note": "Complete for replace, strip, ljust, rjust and expandtabs of bytes and str. center is Python's unless the width and the padding are odd, where the additional element stands on the wrong side (refuted); it is balanced in any case. zfill is Python's unless the width minus the length leaves the 64-bit integers (refuted for the lowest width). The table of whitespace code points is a parameter."
  },
  {
   "property": "C60",
   "status": "partial",
   "theorems": [
    "C60_bytes_slice_partial",
    "C60_str_slice_partial",
    "C60_str_slice_of_literal_refuted",
    "C60_str_slice_of_literal",
    "C60_step_refuted",
    "C60_items",
    "C60_item_is_determined"
   ],
   "note": "Items are complete. Slices of bytes are Python's for any bounds; slices of str too, unless the compiler knows the text and the lower bound but not the upper one, where the upper bound is ignored (refuted). Steps, and slices without bounds, do not compile. Lengths are assumed to fit 32 bits."
  },
  {
   "property": "C61",
   "status": "partial",
   "theorems": [
    "C61_same_history_partial",
    "C61_same_history_without_leaks_partial",
    "C61_raising_yield_refuted",
    "C61_finally_after_raising_yield_refuted",
    "C61_return_value_in_try_finally_refuted",
    "C61_return_value_in_try_except_refuted",
    "C61_yield_in_finally_refuted",
    "C61_reraise_after_yield_refuted",
    "C61_named_handler_refuted",
    "C61_leaked_stop_refuted"
   ],
   "note": "For all programs of if, while, break, continue, return, try/except/else/finally and yield, over arbitrary primitive statements, and all histories, with the restrictions listed in Gen_Spec.supported; refuted by witnesses: a raising yield expression, return with a value under try, yield in a finally block, raise on its own after a yield in a handler, the name of except E as e, and escaping StopIterations. for and with are excluded here (they are rewritten before)."
  },
  {
   "property": "C62",
   "status": "partial",
   "theorems": [
    "C62_rewriting_partial",
    "C62_generator_partial",
    "C62_nested_with_in_generator_refuted",
    "C62_raising_target_refuted",
    "C62_return_value_in_with_refuted"
   ],
   "note": "For all programs over arbitrary primitive statements, managers and iterators, provided the 'as' target accepts what it is given (refuted otherwise: the manager is not left) and no block has the location of a block around it; inside generators all 'with' blocks get the same location, so nesting them is refuted, as is return with a value under a 'with'. 'with a, b' is modelled as two nested blocks."
  },
  {
   "property": "C63",
   "status": "partial",
   "theorems": [
    "C63_same_answer_partial",
    "C63_with_blocks_partial",
    "C63_else_skipped_refuted",
    "C63_else_after_exception_refuted",
    "C63_exception_lost_in_finally_refuted",
    "C63_reraise_refuted",
    "C63_callers_exception_refuted",
    "C63_break_in_else_refuted",
    "C63_finally_skipped_refuted",
    "C63_code_dropped_refuted",
    "C63_wrong_value_refuted",
    "C63_same_place_refuted",
    "C63_exit_that_handles_refuted"
   ],
   "note": "For all programs over arbitrary primitive statements, conditions and iterators in a class of nestings that the specification spells out. Outside of it the claim is refuted: else blocks of try with a try inside, try inside finally, bare raise after a try or a call that handles an exception, break in the else block of a loop, continue in that of a for, a loop left by break whose body and else block return, a given-up return in a finally, and try statements sharing a location. Programs that do not end are not compared."
  },
  {
   "property": "C64",
   "status": "partial",
   "theorems": [
    "C64_same_run_partial",
    "C64_else_never_runs",
    "C64_else_refuted",
    "C64_growing_list_refuted",
    "C64_shrinking_list_refuted",
    "C64_advanced_iterator_refuted",
    "C64_loops_on_one_line_refuted",
    "C64_range_partial",
    "C64_range_iterator_partial",
    "C64_step_zero_refuted",
    "C64_long_range_refuted",
    "C64_empty_range_refuted",
    "C64_least_step_refuted",
    "C64_range_iterator_refuted",
    "C64_tuple_partial",
    "C64_tuple_continue_refuted",
    "C64_tuple_else_break_refuted"
   ],
   "note": "For all programs of nested loops whose bodies keep the length of the list they run over, without else, with loops on lines of their own and ranges whose length fits in 64 bits; loops over tuples when the conversion judges rightly which bodies end. Outside of that the claim is refuted: else never runs (also proved for every program), lists that grow or shrink, advanced iterators, loops whose targets share a line, step 0, very long ranges, the least step, tuples with continue before a return."
  },
  {
   "property": "C65",
   "status": "partial",
   "theorems": [
    "C65_one_for_partial",
    "C65_several_ifs_refuted",
    "C65_two_fors_refuted",
    "C65_two_fors_on_two_lines_refuted",
    "C65_dependent_fors_refuted"
   ],
   "note": "For every comprehension with one for clause, with one if, or several that only look at the state. Several for clauses are refuted (the last is made the outermost loop, and the loops share variables), and so are several ifs of which the second raises (the last is tested first). Iterables that are not counted and generator expressions are not modelled."
  },
  {
   "property": "C66",
   "status": "partial",
   "theorems": [
    "C66_order_is_pythons_partial",
    "C66_pythons_order_is_unique",
    "C66_accepted_when_python_accepts_partial",
    "C66_order_keeps_all_orders_partial",
    "C66_refused_only_without_an_order_partial",
    "C66_subclass_and_index_partial",
    "C66_base_named_twice_refuted"
   ],
   "note": "For every program whose class statements name no base twice. class C(B, A, A) is accepted with an order that has A twice (refuted). Structurally equal classes that typed_python takes for one type, and recursive definitions through forwards, are not modelled."
  },
  {
   "property": "C67",
   "status": "partial",
   "theorems": [
    "C67_attribute_is_pythons_partial",
    "C67_no_attribute_partial",
    "C67_class_and_instance_agree_partial",
    "C67_call_runs_first_accepting_overload_partial",
    "C67_override_runs_partial",
    "C67_merging_again_changes_nothing_partial",
    "C67_class_member_over_method_refuted",
    "C67_property_over_method_refuted",
    "C67_override_with_conversion_refuted"
   ],
   "note": "For names of which all classes say the same kind of thing. Refuted otherwise: a class member or a property does not replace a method of a base on instances; and an override that takes the arguments only after a conversion is passed over for the method of a base that takes them as they are. __getattribute__, __getattr__, default values and the names that every type has are not modelled."
  },
  {
   "property": "C68",
   "status": "partial",
   "theorems": [
    "C68_instances_are_maps_partial",
    "C68_members_do_not_overlap",
    "C68_subclasses_keep_the_layout_partial",
    "C68_other_instances_stay_partial",
    "C68_assignment_loses_members_refuted",
    "C68_deep_copy_finds_values_refuted",
    "C68_compiled_constructor_forgets_defaults_refuted",
    "C68_messages_are_not_checked_refuted",
    "C68_default_held_instance_is_empty_refuted"
   ],
   "note": "For all programs except: assignments to an instance that lacks a member that the source has (it stays missing and leaks, refuted), deep copies into memory whose flag bytes are not zero (refuted), compiled constructors of classes that give a default value to a type that does not make values by itself (forgotten, refuted). Messages that lack a nonempty member or repeat one, and held instances made by default in compiled code, are refuted too. Reference counts, conversion of values, __init__, __setattr__, __delattr__ and __del__ are not modelled."
  },
  {
   "property": "C69",
   "status": "partial",
   "theorems": [
    "C69_calls_run_the_code_of_the_objects_class_partial",
    "C69_one_call_partial",
    "C69_casts_follow_inheritance_partial",
    "C69_nothing_undefined_is_read_partial",
    "C69_calls_stay_partial",
    "C69_long_orders_refuted"
   ],
   "note": "For all programs of one thread in which fewer than 65535 classes are in an order (the limit of the sixteen bits of a table's index; without it refuted) and compiling never fails. What the code of a class for a signature is (property C51, C67) and the layout of objects (C68) are separate."
  },
  {
   "property": "C70",
   "status": "partial",
   "theorems": [
    "C70_issubclass_of_a_known_type_partial",
    "C70_isinstance_of_a_known_type_partial",
    "C70_issubclass_of_unknown_types_partial",
    "C70_impossible_conversions_partial",
    "C70_class_members_refuted",
    "C70_known_against_unknown_refuted",
    "C70_known_against_unknown_partial"
   ],
   "note": "For types whose class members agree under every name that both have (refuted otherwise: two classes with different docstrings may have a common subclass, whose instances compiled code denies), and except a known type against one known up to a base class, where the compiled answer is about the base class (refuted; its no is right). Operands are classes and alternatives; OneOf types, tuples of types and Python types are not modelled."
  },
  {
   "property": "C71",
   "status": "partial",
   "theorems": [
    "C71_encode_gives_utf8_partial",
    "C71_decode_reads_utf8_partial",
    "C71_round_trip",
    "C71_bytes_determine_the_text",
    "C71_encoding_stays_in_its_memory",
    "C71_decoding_ends_partial",
    "C71_malformed_bytes_refuted",
    "C71_impossible_text_refuted",
    "C71_replace_refuted",
    "C71_cut_short_refuted",
    "C71_surrogates_refuted",
    "C71_decode_handlers_refuted"
   ],
   "note": "For text without surrogates and bytes that are UTF-8. Other bytes are not always refused: continuation bytes are not checked, code points beyond the last one and surrogates are accepted, a sequence that is cut short is read beyond its end, the error handler of decode is ignored and that of encode replaces wrongly (all refuted with witnesses). Other encodings and handlers are passed to Python's codecs, which are not modelled."
  },
  {
   "property": "C72",
   "status": "partial",
   "theorems": [
    "C72_cells_hold_the_text",
    "C72_made_text_is_read_back",
    "C72_chr",
    "C72_equality_partial",
    "C72_order_partial",
    "C72_comparison_of_other_text",
    "C72_order_is_total",
    "C72_same_text_same_hash_partial",
    "C72_put_together_is_made",
    "C72_joined_to_nothing_refuted",
    "C72_decoded_text_hash_refuted",
    "C72_item_hash_refuted",
    "C72_join_of_one_hash_refuted"
   ],
   "note": "The cells hold the text always. Comparison is right unless both texts are empty and one is the result of joining, replacing, expanding tabs or zero-filling (refuted). Hashes are equal for texts that are put together from Python's text and characters; text that was decoded, taken apart, or joined from one item may have another hash than the same text from Python (refuted)."
  },
  {
   "property": "C73",
   "status": "partial",
   "theorems": [
    "C73_generated_table",
    "C73_shipped_table",
    "C73_shipped_answers_are_consistent",
    "C73_shipped_spaces",
    "C73_text_partial",
    "C73_bytes",
    "C73_text_like_bytes",
    "C73_decoded_text_refuted"
   ],
   "note": "For text of characters below 0x110000; decoding can make others, and their properties are read beyond the table (refuted). The shipped table is proved to unpack to its runs, to be consistent and to have Unicode's spaces; that it agrees with Python 3.7.4 for each character is not proved, and later Pythons know more characters. isidentifier is left to Python."
  },
  {
   "property": "C74",
   "status": "partial",
   "theorems": [
    "C74_memory_partial",
    "C74_text_partial",
    "C74_cut",
    "C74_text_like_bytes",
    "C74_bytes",
    "C74_small_cells_refuted",
    "C74_final_sigma_refuted",
    "C74_capitalize_refuted",
    "C74_title_refuted",
    "C74_large_text_refuted",
    "C74_hash_refuted"
   ],
   "note": "For text of up to 2^26 characters whose result fits the cells of the old text. Refuted with witnesses: the upper case of U+00FF in cells of one byte becomes x; capital sigma at the end of a word; capitalize since Python 3.8; title of letters without case; text of 2^29 characters overflows the computation of its memory; lower may give a text with another hash than the same text from Python. Python's tables for single characters are parameters."
  },
  {
   "property": "C75",
   "status": "partial",
   "theorems": [
    "C75_int_partial",
    "C75_int_bytes_partial",
    "C75_int_refuses",
    "C75_int_bytes_refuses",
    "C75_int_text_round_trip",
    "C75_uint_text",
    "C75_small_int_text",
    "C75_float_partial",
    "C75_float_bytes_partial",
    "C75_float_refuses_partial",
    "C75_zeros_of_decimals",
    "C75_zeros_before_exponent_partial",
    "C75_int_overflow_refuted",
    "C75_other_digits_refuted",
    "C75_bytes_spaces_refuted",
    "C75_point_refuted",
    "C75_two_points_refuted",
    "C75_long_float_refuted",
    "C75_zero_character_refuted",
    "C75_zeros_of_exponent_refuted"
   ],
   "note": "Integers within sixty-four bits, with the digits of ASCII; floats of up to 48 characters, read as digits and a power of ten whose rounding is left to strtod; texts with one point and one exponent at most are refused rightly but for a point without digits. Refuted with witnesses: larger integers wrap around; digits of other scripts are refused; spaces of Unicode count in bytes; '.' is read as 0.0; '192.168.10.11', '1e+5.5' and '1e55e5' are read as numbers; longer floats are cut; anything may follow a character 0; an exponent that ends with zeros loses them in str(float)."
  },
  {
   "property": "C76",
   "status": "partial",
   "theorems": [
    "C76_round_trip_partial",
    "C76_plain_floats_round_trip",
    "C76_special_round_trip",
    "C76_different_floats_differ_partial",
    "C76_exponent_refuted",
    "C76_shortest_refuted",
    "C76_nan_refuted"
   ],
   "note": "For every float from 0.0001 to 1e16, and beyond that for those whose decimal exponent is no multiple of ten or whose seventeen digits end with a zero; strtod is taken to round to the nearest double. Refuted with witnesses: str(2.0**67) is '1.4757395258967641e+2'; the text is not the shortest one, as Python's is: 0.10000000000000001; nan may be printed as -nan."
  },
  {
   "property": "C77",
   "status": "partial",
   "theorems": [
    "C77_deepcopy_copies_partial",
    "C77_contiguous_copies_partial",
    "C77_every_copy_partial",
    "C77_bytecount_partial",
    "C77_copy_again_partial",
    "C77_cycles_refuted",
    "C77_cells_refuted",
    "C77_unset_members_refuted",
    "C77_slab_overrun_refuted"
   ],
   "note": "For graphs without cycles in which every member has a value, and contiguous copies without cells; refcounts may be larger than the pointers from the graph. PythonObjectOfType and functions are not modelled. Refuted with witnesses: an object that holds itself is copied without end; a cell is counted without what it holds in place, and its copy is written behind the slab; a member without a value may have one in the copy, and counting it reads what is not there; the check of the slab forgets the header."
  },
  {
   "property": "C78",
   "status": "partial",
   "theorems": [
    "C78_all",
    "C78_one_answer",
    "C78_any_partial",
    "C78_any_refuted",
    "C78_any_of_nothing_refuted",
    "C78_any_function",
    "C78_min_max_like_python",
    "C78_first_best",
    "C78_arguments_partial",
    "C78_arguments_refuted",
    "C78_key_partial",
    "C78_key_of_arguments_partial",
    "C78_key_taken_once_refuted"
   ],
   "note": "all, min and max of iterables and of arguments; key functions that do not raise. Refuted with witnesses: any is compiled to all, so any([0, 1]) is False and any([]) is True; the key function of min and max of arguments is called twice for each; these compare with > where Python compares with <."
  },
  {
   "property": "C79",
   "status": "partial",
   "theorems": [
    "C79_programs_keep_counts_partial",
    "C79_allocated_is_reached_partial",
    "C79_everything_is_freed_partial",
    "C79_assignments_keep_counts_partial",
    "C79_first_value_of_a_member_partial",
    "C79_deleted_member_partial",
    "C79_appended_element_partial",
    "C79_removed_element_partial",
    "C79_cleared_cell_partial",
    "C79_compiled_next_refuted",
    "C79_compiled_unlink_refuted",
    "C79_held_class_members_refuted",
    "C79_alternatives_without_members_refuted",
    "C79_compiled_clear_refuted",
    "C79_circles_refuted"
   ],
   "note": "Every program of the modelled steps in the interpreter keeps all counts exact and uses no freed memory; every assignment, interpreted or compiled, between places that do not depend on the value that goes away. Without circles the allocated objects are those that variables lead to. Refuted with witnesses: compiled x = x.next and s.next = s.next.next read freed memory; assigning a HeldClass over unset members leaks; an Alternative without members is followed as a pointer; a TypedCell cleared in compiled code destroys its value twice; circles are never freed. Missing: __del__, Python objects, functions, threads."
  },
  {
   "property": "C80",
   "status": "partial",
   "theorems": [
    "C80_compiled_runs_as_python_partial",
    "C80_compiled_variables_like_python_partial",
    "C80_compiled_variables_are_safe_partial",
    "C80_beliefs_are_right_partial",
    "C80_break_refuted",
    "C80_continue_refuted",
    "C80_break_from_tuple_refuted",
    "C80_for_else_refuted",
    "C80_finally_refuted",
    "C80_assert_then_finally_refuted",
    "C80_try_else_refuted",
    "C80_nested_handlers_refuted",
    "C80_return_in_finally_refuted",
    "C80_handler_names_refuted"
   ],
   "note": "Compiled programs end as in Python with the same variables, for programs that are tame: after a statement that break or continue may leave the rest of the block binds nothing, else blocks of for do not mention the target, else blocks of try bind nothing, finally blocks bind nothing and mention nothing the try binds, names of handlers are used for nothing else. Outside of these each condition is shown needed by a witness: break, continue, unrolled tuple loops, for-else, finally, assert before finally, try-else, nested handlers, return in finally, names of handlers. Missing: constant conditions, while True, closures, generators, with, types of operations (taken to be right)."
  },
  {
   "property": "C81",
   "status": "partial",
   "theorems": [
    "C81_programs_stay_inside_partial",
    "C81_integer_programs_stay_inside",
    "C81_elements",
    "C81_making",
    "C81_copies",
    "C81_rows_and_diagonals_are_views",
    "C81_setting",
    "C81_get_and_set_partial",
    "C81_array_operators",
    "C81_adding_partial",
    "C81_matrix_operators",
    "C81_sums",
    "C81_products_partial",
    "C81_adding_floats_refuted",
    "C81_adding_floats_is_wrong_refuted",
    "C81_get_checks_the_shape_refuted",
    "C81_operators_heed_the_offset_refuted",
    "C81_products_heed_the_offset_refuted",
    "C81_empty_products_refuted"
   ],
   "note": "Proved for every program that does not add float arrays whose strides differ, and for products with at least one row and column. Refuted by witnesses: float a + b and a += b pass the two strides to BLAS the wrong way round, so they are wrong or leave the list when the strides differ; get and set of arrays and matrices do not check indices against the shape; operators and products ignore the offset of a matrix made with one by its public constructor; products with an empty inner dimension are rejected by BLAS. Missing: __invert__, inverse, __repr__, operators that raise, rounding and the order of float sums, the names of the Float32 routines."
  },
  {
   "property": "C82",
   "status": "partial",
   "theorems": [
    "C82_no_error",
    "C82_groups_are_classes",
    "C82_groups_are_determined",
    "C82_groups_are_kept",
    "C82_calls_give_groups",
    "C82_calls_return",
    "C82_processes_agree",
    "C82_equal_hashes_are_alike",
    "C82_poison_spreads",
    "C82_processes_agree_on_poison"
   ],
   "note": "Proved for every graph, history and interleaving, with the choice of a root, the visit of an object and the hash functions as parameters. Missing: computeRoot itself (it is assumed to choose a member by the set of members, and for agreement of processes to choose corresponding members wherever the choice is clear), groups made by the deserializer and by forward definitions, objects that change while groups are sought, and the guard against asking for hashes while hashing."
  },
  {
   "property": "C83",
   "status": "partial",
   "theorems": [
    "C83_options",
    "C83_options_once",
    "C83_nested",
    "C83_choice",
    "C83_refusal",
    "C83_errors",
    "C83_levels",
    "C83_calls",
    "C83_strings",
    "C83_round_trip_partial",
    "C83_round_trip_types",
    "C83_round_trip_refuted",
    "C83_numbers_partial",
    "C83_numbers_refuted",
    "C83_default"
   ],
   "note": "The options, the choice, levels, refusals, text and the default are proved in full; round trips except for constants that are zeros or NaNs, the int constants for bools and ints of more than 64 bits, which are refuted (OneOf(1, bool)(True) gives 1). Numbers keep to upcasts, which may lose digits. Missing: the conversions to containers, classes and alternatives themselves (parameters), numpy numbers, constants of other types, and floats to integers."
  },
  {
   "property": "C84",
   "status": "partial",
   "theorems": [
    "C84_once",
    "C84_agree",
    "C84_no_forward",
    "C84_settled",
    "C84_result",
    "C84_error",
    "C84_exclusive",
    "C84_recursion",
    "C84_no_recursion",
    "C84_progress",
    "C84_complete_partial",
    "C84_early_refuted",
    "C84_failed_refuted",
    "C84_origin",
    "C84_origin_known",
    "C84_keywords",
    "C84_dicts",
    "C84_reconstruct",
    "C84_arguments_refuted"
   ],
   "note": "Proved for every function, number of threads and interleaving. Types are complete when no type function runs and none failed; refuted otherwise: another thread gets a type before the Forward in it is defined, and a function that fails leaves open Forwards in types that calls still give. Missing: that Python compares arguments with == (1, 1.0 and True are one key), functions as arguments, and code that catches exceptions which are not Exceptions."
  },
  {
   "property": "C85",
   "status": "partial",
   "theorems": [
    "C85_whole",
    "C85_one",
    "C85_lasting",
    "C85_no_cycle",
    "C85_start",
    "C85_start_marks",
    "C85_start_among",
    "C85_found",
    "C85_added",
    "C85_depends",
    "C85_load",
    "C85_kept",
    "C85_load_among",
    "C85_load_partial",
    "C85_news",
    "C85_marks",
    "C85_recovery",
    "C85_pointer",
    "C85_stable",
    "C85_load_refuted",
    "C85_lost_refuted"
   ],
   "note": "Proved for every history of processes, writes, loads and crashes. Refuted: if a module that another needs cannot be loaded, only the former is marked, and looking for a function of the latter raises AssertionError in place of forgetting it; modules loaded before that are never reported to the compiler. It raises nothing if no needed module fails (load_partial), and processes that start later are not offered that module (recovery). Missing: loading, and reading one module with what it needs, are single steps against other processes; clashes of random hashes; failures of the file system and of loading module.so; the check of link dependencies."
  }
 ]
}
{"id": "C01", "title": "Unsigned varints survive serialization", "statement": "Writing any unsigned 64-bit integer as a varint and reading it back from the front of any longer stream gives the same integer and leaves exactly the rest of the stream unread; no encoding is a proper prefix of another, and an encoding is at most ten bytes long.", "quantifier": "every unsigned 64-bit integer and every sequence of bytes that follows it in the stream", "why_tests_cant": "There are 2^64 values and unboundedly many continuations; tests sample a handful around byte boundaries.", "anchors": ["typed_python/SerializationBuffer.hpp:writeUnsignedVarint", "typed_python/DeserializationBuffer.hpp:readUnsignedVarint"]}
{"id": "C02", "title": "Signed varints survive serialization", "statement": "Serializing any signed 64-bit integer (including the most negative one) and deserializing it returns the same integer and consumes exactly the bytes written.", "quantifier": "every signed 64-bit integer and every following byte stream", "why_tests_cant": "The zig-zag transform negates the value, so the extreme negative values are the ones at risk; a test cannot enumerate 2^64 inputs.", "anchors": ["typed_python/SerializationBuffer.hpp:writeSignedVarint", "typed_python/DeserializationBuffer.hpp:readSignedVarint"]}
{"id": "C03", "title": "Unknown fields can be skipped exactly", "statement": "Discarding any well-formed message from a serialized stream consumes exactly that message and nothing after it, whatever its wire type and however deeply it nests; copying a message into another buffer emits a message that reads back identically.", "quantifier": "every well-formed wire message of any nesting depth and every following byte stream", "why_tests_cant": "Message trees have unbounded depth and width.", "anchors": ["typed_python/DeserializationBuffer.hpp:finishReadingMessageAndDiscard", "typed_python/DeserializationBuffer.hpp:copyMessageToOtherBuffer", "typed_python/WireType.hpp"]}
{"id": "C04", "title": "Serialize then deserialize is the identity", "statement": "For every serializable value built from booleans, sized integers, floats, None, strings, bytes, TupleOf, ListOf, Tuple, NamedTuple, OneOf, Alternative, ConstDict, Dict and Set types, deserializing what serialize wrote yields an equal value of the same type and consumes exactly the bytes written.", "quantifier": "every type expression in the fragment and every value of that type, of any size and depth", "why_tests_cant": "Values and types are inductively generated; tests only try fixed examples.", "anchors": ["typed_python/TupleOrListOfType.hpp:serialize", "typed_python/TupleOrListOfType.hpp:deserialize", "typed_python/CompositeType.hpp:serialize", "typed_python/OneOfType.hpp:serialize", "typed_python/DictType.hpp:serialize", "typed_python/ConstDictType.hpp:serialize", "typed_python/AlternativeType.hpp:serialize"]}
{"id": "C05", "title": "Aliasing survives serialization", "statement": "If the same mutable list (or dict) object occurs in several places of a serialized value, then after deserialization the corresponding places again hold one shared object, and distinct objects stay distinct, including when an object contains itself.", "quantifier": "every object graph of lists, with arbitrary sharing and cycles", "why_tests_cant": "Sharing patterns are graphs of unbounded size; unit tests check a pair of references.", "anchors": ["typed_python/SerializationBuffer.hpp:cachePointer", "typed_python/DeserializationBuffer.hpp:lookupCachedPointer", "typed_python/TupleOrListOfType.hpp:serialize"]}
{"id": "C06", "title": "Schema evolution of tuples by field number", "statement": "Deserializing a serialized tuple with a tuple type that has more fields than the writer fills the common fields with the written values and the additional ones with their defaults; with a type that has fewer fields the extra ones are ignored; nothing after the message is consumed.", "quantifier": "every pair of tuple types where one extends the other and every value of the writer's type", "why_tests_cant": "Quantifies over pairs of types and arbitrary nested unknown field contents.", "anchors": ["typed_python/CompositeType.hpp:deserialize", "typed_python/OneOfType.hpp:deserialize"]}
{"id": "C07", "title": "Integer lists survive block compression", "statement": "Serializing any list of 64-bit integers with the inline integer-block encoding and deserializing it gives the same list, whatever mix of magnitudes and whatever length; every block carries at most 255 integers.", "quantifier": "every list of 64-bit integers, of every length", "why_tests_cant": "The encoder switches block width adaptively, so the state space is all sequences of magnitudes.", "anchors": ["typed_python/TupleOrListOfType.hpp:serializeIntList", "typed_python/TupleOrListOfType.hpp:trySerializeIntListBlock", "typed_python/TupleOrListOfType.hpp:deserializeIntList"]}
{"id": "C08", "title": "Parallel compression never changes the output", "statement": "With the background compression threads enabled, finalizing a serialization buffer always yields the same bytes as compressing every block in order on one thread, whatever the interleaving of writer and worker threads; every block is compressed exactly once and finalize cannot wait forever.", "quantifier": "every number of blocks and worker threads and every interleaving of their atomic steps", "why_tests_cant": "Schedules are unbounded and not controllable from a unit test.", "anchors": ["typed_python/SerializationBuffer.cpp:markForCompression", "typed_python/SerializationBuffer.cpp:waitForCompression", "typed_python/SerializationBuffer.cpp:compressionThread", "typed_python/SerializationBuffer.hpp:finalize"]}
{"id": "C09", "title": "Dict is a finite map", "statement": "For every history of insertions, overwrites, deletions, clears and lookups on a Dict, membership, lookup, length and the set of items agree with the mathematical finite map built by the same history, whatever the hash function does (including all keys colliding).", "quantifier": "every sequence of operations, every key type with an equality that the hash respects, every hash function", "why_tests_cant": "Resizing, compaction and tombstones interact only after particular long histories.", "anchors": ["typed_python/hash_table_layout.hpp:find", "typed_python/hash_table_layout.hpp:add", "typed_python/hash_table_layout.hpp:remove", "typed_python/hash_table_layout.hpp:resizeTable", "typed_python/hash_table_layout.hpp:compressItemTable", "typed_python/DictType.cpp:insertKey", "typed_python/DictType.cpp:deleteKey"]}
{"id": "C10", "title": "Dict lookups always terminate", "statement": "Looking up, inserting or deleting any key in any reachable Dict or Set finishes: the probe sequence always reaches the key or a never-used slot.", "quantifier": "every reachable table, every 32-bit hash value including the most negative one", "why_tests_cant": "An infinite probe needs a specific hash and a table without an empty slot on its cycle; absence for all hashes cannot be tested.", "anchors": ["typed_python/hash_table_layout.hpp:find", "typed_python/hash_table_layout.hpp:add"]}
{"id": "C11", "title": "Dict iteration sees every item once", "statement": "Walking a Dict or Set by slot visits every live item exactly once, in an order that is the insertion order of the live keys as long as keys are only re-inserted after deletion.", "quantifier": "every history of operations", "why_tests_cant": "Requires an invariant linking item slots, the populated flags and compaction for all histories.", "anchors": ["typed_python/hash_table_layout.hpp:compressItemTable", "typed_python/hash_table_layout.hpp:allocateNewSlot", "typed_python/PyDictInstance.cpp"]}
{"id": "C12", "title": "Dict hash table rebuilt after loading finds every key", "statement": "After a Dict or Set is deserialized, its rebuilt hash table finds exactly the deserialized keys, and the table's internal invariants hold.", "quantifier": "every sequence of distinct keys read from a stream and every hash function", "why_tests_cant": "All sizes and all collision patterns.", "anchors": ["typed_python/hash_table_layout.hpp:prepareForDeserialization", "typed_python/hash_table_layout.hpp:buildHashTableAfterDeserialization"]}
{"id": "C13", "title": "ConstDict lookup and merge laws", "statement": "A ConstDict built from any collection of pairs is kept sorted without duplicate keys; lookup finds a key exactly when it is present; d1 + d2 has the keys of both with d2 winning; d - keys has exactly the keys of d not listed.", "quantifier": "every totally ordered key type, every pair of dictionaries and key collections", "why_tests_cant": "Binary search and merging must be right for every size and key position.", "anchors": ["typed_python/ConstDictType.cpp:lookupIndexByKey", "typed_python/ConstDictType.cpp:addDicts", "typed_python/ConstDictType.cpp:subtractTupleOfKeysFromDict", "typed_python/ConstDictType.cpp:sortKvPairs"]}
{"id": "C14", "title": "ConstDict equality, ordering and hash agree", "statement": "Two ConstDicts compare equal exactly when they have the same items; equal ConstDicts hash equally; the ordering is a total order consistent with equality; != is the negation of ==.", "quantifier": "every pair and triple of ConstDicts", "why_tests_cant": "Transitivity and totality quantify over all triples.", "anchors": ["typed_python/ConstDictType.cpp:cmp", "typed_python/ConstDictType.cpp:hash"]}
{"id": "C15", "title": "SortedDict is an ordered finite map", "statement": "For every history of setitem, delitem, pop, setdefault and lookups, a SortedDict agrees with the finite map built by the same history: membership, lookup, len, first, last and KeyError behaviour.", "quantifier": "every sequence of operations and every strict total order used as comparator", "why_tests_cant": "Rotations happen only for particular shapes; histories are unbounded.", "anchors": ["typed_python/lib/sorted_dict.py:SortedDict_", "typed_python/lib/sorted_dict.py:Node"]}
{"id": "C16", "title": "SortedDict iterates in order", "statement": "Iterating keys, values or items of a SortedDict produces every stored item exactly once, in strictly increasing key order, and the number produced is len().", "quantifier": "every reachable SortedDict", "why_tests_cant": "Every tree shape.", "anchors": ["typed_python/lib/sorted_dict.py:items", "typed_python/lib/sorted_dict.py:__iter__"]}
{"id": "C17", "title": "SortedDict stays balanced", "statement": "The depth of a SortedDict is logarithmic in its size (so that each operation costs O(log n)) for every history.", "quantifier": "every history of insertions and deletions", "why_tests_cant": "An adversarial insertion order is needed to break it.", "anchors": ["typed_python/lib/sorted_dict.py:rebalance"]}
{"id": "C18", "title": "sort produces a sorted permutation", "statement": "sort() leaves the list a permutation of what it was, in non-decreasing order of the key, for every list and every initial state of the pivot choice, provided values that compare equal have equal keys; it always terminates; sorted() additionally leaves its argument unchanged.", "quantifier": "every list over a totally ordered key type, every pivot seed", "why_tests_cant": "Input and pivot sequences are unbounded.", "anchors": ["typed_python/lib/sorting.py:sort", "typed_python/lib/sorting.py:_quicksortBetween", "typed_python/lib/sorting.py:_sortAroundPivot", "typed_python/lib/sorting.py:sorted"]}
{"id": "C19", "title": "searchSorted finds the value", "statement": "On a sorted list searchSorted returns an index at which the value occurs if it occurs at all, and -1 (as documented) if it does not occur.", "quantifier": "every sorted list and every value", "why_tests_cant": "Binary search off-by-one errors depend on length and position.", "anchors": ["typed_python/lib/sorting.py:searchSorted"]}
{"id": "C20", "title": "TypedQueue is a FIFO queue under concurrency", "statement": "Under every interleaving of put, putMany, get, getNonblocking, getMany and peek by any number of threads, every item put is delivered at most once, items are delivered in the order they were put, and the length never lies.", "quantifier": "every number of threads, every program per thread and every interleaving", "why_tests_cant": "Schedules are unbounded.", "anchors": ["typed_python/typed_queue.py:TypedQueue"]}
{"id": "C21", "title": "TypedQueue never loses a wake-up", "statement": "A thread blocked in get() or getMany() is able to proceed whenever the queue holds an item and no other thread is in the middle of an operation, and no operation ever releases a lock that is not held.", "quantifier": "every interleaving of any number of threads", "why_tests_cant": "A lost wake-up needs one specific schedule.", "anchors": ["typed_python/typed_queue.py:get", "typed_python/typed_queue.py:put", "typed_python/typed_queue.py:getMany"]}
{"id": "C22", "title": "pmap equals map", "statement": "pmap(lst, f) returns exactly [f(x) for x in lst] when no call raises, and otherwise raises the exception of the earliest failing element, for every assignment of chunks to threads and every completion order; every element is processed at most once.", "quantifier": "every list, every chunk granularity, every schedule of the worker threads", "why_tests_cant": "Schedules and lengths are unbounded.", "anchors": ["typed_python/lib/pmap.py:pmap", "typed_python/lib/pmap.py:ListJob"]}
{"id": "C23", "title": "Calendar dates and day numbers are in bijection", "statement": "Converting a valid (year, month, day) to a day count and back gives the same date, converting any day count to a date and back gives the same count, and consecutive day counts are consecutive calendar dates of the proleptic Gregorian calendar.", "quantifier": "every integer day number and every valid date of every year, including negative years", "why_tests_cant": "Infinitely many dates; the algorithm works in 400-year eras.", "anchors": ["typed_python/lib/datetime/chrono.py:days_from_civil", "typed_python/lib/datetime/chrono.py:civil_from_days"]}
{"id": "C24", "title": "Weekdays are right", "statement": "The weekday computed for a date is the true weekday: 1970-01-01 is a Thursday and each following day is the next weekday, for every date before and after 1970; it is always in the documented range 0..6.", "quantifier": "every date", "why_tests_cant": "Dates before the epoch take a separate branch that tests rarely exercise.", "anchors": ["typed_python/lib/datetime/chrono.py:weekday_from_days", "typed_python/lib/datetime/date_time.py:Date.weekday"]}
{"id": "C25", "title": "Date navigation", "statement": "next/previous, nextMonthStart, lastDayOfMonth, daysInMonth, nextWeekday, lastWeekday, nextMonth and the quarter functions return valid dates with their documented meaning (for example lastWeekday returns a date on the requested weekday not later than the given date).", "quantifier": "every valid date and every argument", "why_tests_cant": "Month length and weekday offsets combine into many cases across all years.", "anchors": ["typed_python/lib/datetime/date_time.py:Date"]}
{"id": "C26", "title": "Time zone conversion round-trips", "statement": "For a fixed-offset zone converting a timestamp to a wall-clock time and back is the identity; for a daylight-savings zone, every timestamp maps to a wall clock from which timestamp() (with the fold flag) recovers it, and every skipped wall-clock time is rejected.", "quantifier": "every timestamp and every offset / daylight-savings rule", "why_tests_cant": "The transitions depend on year, weekday and offset.", "anchors": ["typed_python/lib/datetime/date_time.py:Timezone", "typed_python/lib/datetime/date_time.py:DaylightSavingsTimezone", "typed_python/lib/datetime/date_time.py:FixedOffsetTimezone"]}
{"id": "C27", "title": "Date formatting is unambiguous", "statement": "Formatting with the ISO-style directives pads every field to its fixed width, and parsing the result gives back the same date and time.", "quantifier": "every valid date and time of day with a four digit year", "why_tests_cant": "Millions of dates times all times of day.", "anchors": ["typed_python/lib/datetime/date_formatter.py", "typed_python/lib/datetime/date_parser.py"]}
{"id": "C28", "title": "Integer division, modulus and shifts follow Python", "statement": "//, %, << and >> on typed integers give Python's result (reduced to the width of the result type) for all operands, including negative operands and extreme values, or raise exactly where Python raises.", "quantifier": "every pair of 64-bit (and narrower) operands, signed and unsigned", "why_tests_cant": "2^128 operand pairs, with corner cases at the extremes.", "anchors": ["typed_python/PyRegisterTypeInstance.hpp:pyMod", "typed_python/PyRegisterTypeInstance.hpp:pyFloorDiv", "typed_python/PyRegisterTypeInstance.hpp:pyLshift", "typed_python/PyRegisterTypeInstance.hpp:pyRshift"]}
{"id": "C29", "title": "Interpreter and compiler agree on arithmetic result types", "statement": "For every pair of register types and every arithmetic operator, the result type used by the interpreter is the one the compiler computes; the promotion is symmetric and associative, and the result is at least as wide as both operands.", "quantifier": "every pair and triple of register types and every binary operator", "why_tests_cant": "Agreement of two separately written tables for all combinations.", "anchors": ["typed_python/type_promotion.py:computeArithmeticBinaryResultType", "typed_python/PromotesTo.hpp"]}
{"id": "C30", "title": "Upcasts never change a value", "statement": "A conversion allowed at the Upcast level between register types preserves the numeric value.", "quantifier": "every pair of register types with an allowed upcast and every value of the source type", "why_tests_cant": "Quantifies over all 64-bit values.", "anchors": ["typed_python/RegisterTypes.hpp:isValidUpcast", "typed_python/ConversionLevel.hpp"]}
{"id": "C31", "title": "Call argument binding follows Python", "statement": "Calling a Function overload with positional and keyword arguments binds each parameter to the value Python's calling convention gives it, and fails exactly when Python would raise a TypeError for a mismatched argument list.", "quantifier": "every signature (positional, defaulted, *args, keyword-only, **kwargs) and every call", "why_tests_cant": "Signatures and calls are unbounded lists.", "anchors": ["typed_python/FunctionCallArgMapping.hpp"]}
{"id": "C32", "title": "Merged types cover all inputs", "statement": "The merge of a set of inferred types admits every value admitted by each input type, does not depend on the order of the inputs, and contains no type that is subsumed by another.", "quantifier": "every list of types", "why_tests_cant": "Quantifies over all lists of types and all permutations.", "anchors": ["typed_python/compiler/merge_type_wrappers.py:mergeTypeWrappers"]}
{"id": "C33", "title": "Cycle detection and topological sort", "statement": "The graph utility's topological sort lists every node exactly once with every edge pointing the same way whenever the graph has no cycle and reports a cycle otherwise; createsCycle(a, b) is true exactly when adding the edge would create a cycle.", "quantifier": "every finite directed graph built by any history of edge insertions and removals", "why_tests_cant": "Graphs are unbounded.", "anchors": ["typed_python/compiler/directed_graph.py:DirectedGraph"]}
{"id": "C34", "title": "Compiler work list never loses a function", "statement": "Every function marked dirty is eventually handed out by the work list (once per marking), the highest-priority one first, and functions whose callee's signature changed are marked dirty again.", "quantifier": "every history of marking, popping, adding edges and dropping nodes", "why_tests_cant": "Histories are unbounded.", "anchors": ["typed_python/compiler/function_dependency_graph.py:FunctionDependencyGraph"]}
{"id": "C35", "title": "Equal values hash equally", "statement": "For every register type, tuple, list or OneOf value, values that compare equal have the same hash.", "quantifier": "every pair of values of a hashable type", "why_tests_cant": "Pairs of values over unbounded types.", "anchors": ["typed_python/HashAccumulator.hpp", "typed_python/RegisterTypes.hpp:hash", "typed_python/TupleOrListOfType.cpp:hash", "typed_python/CompositeType.cpp:hash", "typed_python/OneOfType.cpp:hash"]}
{"id": "C36", "title": "Comparison operators form a total order", "statement": "For values of any first-order type without NaN, exactly one of <, ==, > holds, <= and >= and != are derived consistently, and < is transitive.", "quantifier": "every triple of values of every type in the fragment", "why_tests_cant": "Triples of arbitrarily nested values.", "anchors": ["typed_python/TupleOrListOfType.cpp:cmp", "typed_python/CompositeType.cpp:cmp", "typed_python/OneOfType.cpp:cmp", "typed_python/Type.hpp:cmpResultToBoolForPyOrdering"]}
{"id": "C37", "title": "ListOf behaves like a Python list", "statement": "Every history of append, extend, pop, indexing, indexed assignment, slicing, concatenation, copy, clear, resize and reserve on a ListOf, by interpreted and compiled code in turn, answers and leaves what the same operations do on a Python list, touches no memory that is not the list's, and the reserved capacity is never below the length.", "quantifier": "every history of operations with every (negative, out of range) index", "why_tests_cant": "Histories and index values are unbounded.", "anchors": ["typed_python/TupleOrListOfType.cpp", "typed_python/PyTupleOrListOfInstance.cpp", "typed_python/compiler/type_wrappers/list_of_wrapper.py", "typed_python/compiler/type_wrappers/tuple_of_wrapper.py"]}
{"id": "C38", "title": "Only real dates can be constructed", "statement": "Date(y, m, d) succeeds exactly for real calendar dates with a non-negative year and raises NonexistentDate otherwise.", "quantifier": "every triple of integers", "why_tests_cant": "All triples, including negative numbers.", "anchors": ["typed_python/lib/datetime/date_time.py:Date.__init__", "typed_python/lib/datetime/chrono.py:is_valid_date"]}
{"id": "C39", "title": "Dates are ordered chronologically", "statement": "The comparison operators on Date and DateTime agree with chronological order, and the difference of two dates is the number of days between them.", "quantifier": "every pair of valid dates and date-times", "why_tests_cant": "All pairs of dates.", "anchors": ["typed_python/lib/datetime/date_time.py:Date.__lt__", "typed_python/lib/datetime/date_time.py:DateTime.__lt__"]}
{"id": "C40", "title": "Date ranges contain exactly the right dates", "statement": "daterange(start, end, step, stepSize) lists start, start+stepSize, ... up to but excluding end, by days, weeks, months (clipping to the month's length without drifting) or years; with reversed=True it lists the same interval backwards.", "quantifier": "every pair of dates, step kind and positive step size", "why_tests_cant": "Range lengths and month-length patterns are unbounded.", "anchors": ["typed_python/lib/datetime/date_time_util.py:daterange"]}
{"id": "C41", "title": "validateSerializedObject accepts exactly the well-formed messages", "statement": "validateSerializedObject(data) returns normally if and only if data is exactly one well-formed message.", "quantifier": "every byte string", "why_tests_cant": "All byte strings; the nesting depth is unbounded.", "anchors": ["typed_python/_types.cpp:validateSerializedObject", "typed_python/DeserializationBuffer.hpp:readMessageAndDiscard"]}
{"id": "C42", "title": "OneOf and Alternative types can gain options", "statement": "Data written with a OneOf or Alternative type is read back by a type that lists further options after the original ones; a reader that lacks the written option skips it or raises an error, and does not disturb what follows.", "quantifier": "every value, every option list and every extension of it", "why_tests_cant": "Types, values and the data after them are unbounded.", "anchors": ["typed_python/OneOfType.hpp:deserialize", "typed_python/AlternativeType.hpp:deserialize"]}
{"id": "C43", "title": "Deserialization of arbitrary bytes ends and stays in bounds", "statement": "deserialize(T, data) on any byte string, however corrupt, terminates and either returns or raises an exception; it never reads or writes outside the memory it allocated.", "quantifier": "every byte string and every type", "why_tests_cant": "All byte strings; a fuzzer only samples them.", "anchors": ["typed_python/DeserializationBuffer.hpp", "typed_python/TupleOrListOfType.hpp:deserializeIntList", "typed_python/ConstDictType.hpp:deserialize", "typed_python/DictType.hpp:deserialize"]}
{"id": "C44", "title": "Compiled and interpreted Dict operations agree", "statement": "The two implementations of the Dict operations (the C++ one the interpreter calls and the Python one compiled code uses) work on the same table: any history may be split between them in any way, and the results are the same.", "quantifier": "every history of operations and every choice of which operations are compiled", "why_tests_cant": "Both implementations must keep every invariant the other relies on, for every history and every interleaving of the two.", "anchors": ["typed_python/hash_table_layout.hpp", "typed_python/compiler/type_wrappers/hash_table_implementation.py", "typed_python/compiler/type_wrappers/dict_wrapper.py", "typed_python/PyDictInstance.cpp"]}
{"id": "C45", "title": "Set is a mathematical set in interpreted and compiled code", "statement": "Every method, operator and comparison of Set(T) -- add, discard, remove, pop, clear, union, intersection, difference, symmetric difference, their in-place forms, ==, <=, <, issubset, issuperset, isdisjoint, len and iteration -- behaves like the same operation on mathematical sets, whether the interpreter or compiled code runs it and also when an argument is the set itself.", "quantifier": "every program over any number of Sets, every argument (Sets and iterables) and every choice of which operations are compiled", "why_tests_cant": "All programs and all aliasing patterns; the two implementations share the tables.", "anchors": ["typed_python/PySetInstance.cpp", "typed_python/SetType.cpp:cmp", "typed_python/compiler/type_wrappers/set_wrapper.py", "typed_python/compiler/type_wrappers/hash_table_implementation.py"]}
{"id": "C46", "title": "Comparing a Set with a builtin set", "statement": "For a Set s and a builtin set r, s == r, s <= r, s < r, s >= r and s > r have their set-theoretic meaning.", "quantifier": "every Set and every builtin set", "why_tests_cant": "All pairs of sets.", "anchors": ["typed_python/PySetInstance.cpp:compare_to_python_concrete", "typed_python/PySetInstance.cpp:subset", "typed_python/PySetInstance.cpp:superset"]}
{"id": "C47", "title": "Equality of Dicts and of their views", "statement": "Two Dicts are equal exactly when they have the same keys with equal values, whatever their histories; the same holds against a Python dict; keys() and items() views compare like sets of keys and of items, and membership in values() and items() is membership.", "quantifier": "every pair of Dict histories and every Python dict", "why_tests_cant": "All pairs of histories; equal maps may have different table layouts.", "anchors": ["typed_python/DictType.cpp:cmp", "typed_python/PyDictInstance.cpp:compare_to_python_concrete", "typed_python/PyDictInstance.cpp:compare_as_iterator_to_python_concrete", "typed_python/PyDictInstance.cpp:sq_contains_concrete"]}
{"id": "C48", "title": "Constructing a Dict from a mapping", "statement": "Dict(K, V)(mapping) is the Dict that assigning the converted items one after the other would give.", "quantifier": "every mapping, also when different keys of the mapping convert to the same key", "why_tests_cant": "All mappings; key collisions after conversion are rarely tested.", "anchors": ["typed_python/PyDictInstance.cpp:copyConstructFromPythonInstanceConcrete"]}
{"id": "C49", "title": "Compression is transparent to the reader", "statement": "Reading a compressed stream gives exactly the bytes that were written, in order, however the data was cut into writes and blocks and whatever sequence of reads is made; corrupt streams end in an exception and never read outside the buffer.", "quantifier": "every sequence of writes, every sequence of reads that may depend on the data, every byte string as corrupt input", "why_tests_cant": "The block boundaries interact with every read size; all cuts and all reads.", "anchors": ["typed_python/DeserializationBuffer.cpp:decompress", "typed_python/DeserializationBuffer.hpp:read_bytes", "typed_python/SerializationBuffer.hpp:checkTopBlock"]}
{"id": "C50", "title": "Comparing integers of two types compares the numbers", "statement": "==, !=, <, >, <= and >= between typed integers (or bools) of any two types give the result of comparing the numbers they stand for.", "quantifier": "every pair of integer types and every pair of values", "why_tests_cant": "Quantifies over all pairs of 64-bit values of 81 pairs of types.", "anchors": ["typed_python/PyRegisterTypeInstance.hpp:pyCompare", "typed_python/PromotesTo.hpp"]}
{"id": "C51", "title": "The first overload that accepts a call runs", "statement": "Calling a function with several overloads runs the first overload, at the lowest conversion level at which any accepts the call, that accepts the arguments; its body finds the bound values converted to the annotated types, and a TypeError is raised exactly if no overload accepts the call at any level. Compiled code makes the same choice.", "quantifier": "every list of overloads, every call and every behaviour of the conversions", "why_tests_cant": "All overload sets, all argument lists and conversions that may succeed or fail in any pattern.", "anchors": ["typed_python/PyFunctionInstance.cpp:tryToCallAnyOverload", "typed_python/PyFunctionInstance.cpp:tryToCallOverload", "typed_python/FunctionCallArgMapping.hpp", "typed_python/compiler/type_wrappers/python_typed_function_wrapper.py:generateMethodImplementation"]}
{"id": "C52", "title": "Comparing typed values with ordinary Python values", "statement": "Comparing a TupleOf, ListOf, Tuple or NamedTuple (of numbers, strings, bytes, None, OneOfs and nested tuples) with an ordinary Python value gives the answer Python gives when the typed value is replaced by the Python value it stands for.", "quantifier": "every typed value, every Python value and each of the six operators", "why_tests_cant": "All pairs of nested values; the answer depends on the representation of strings and on operand order.", "anchors": ["typed_python/PyTupleOrListOfInstance.cpp:compare_to_python_concrete", "typed_python/PyCompositeTypeInstance.cpp:compare_to_python_concrete", "typed_python/PyStringInstance.hpp:compare_to_python_concrete", "typed_python/PyBytesInstance.hpp:compare_to_python_concrete", "typed_python/PyRegisterTypeInstance.hpp:compare_to_python_concrete"]}
{"id": "C53", "title": "Compiled and interpreted hashes agree", "statement": "Compiled code and the interpreter compute the same hash for every value, so a Dict key stored by one is found by the other.", "quantifier": "every value of every hashable type", "why_tests_cant": "All values; a disagreement may affect a handful of the 2^64 integers.", "anchors": ["typed_python/compiler/type_wrappers/tuple_of_wrapper.py:tuple_of_hash", "typed_python/compiler/type_wrappers/tuple_wrapper.py:convert_hash", "typed_python/compiler/type_wrappers/hash_wrapper.py", "typed_python/compiler/type_wrappers/one_of_wrapper.py:convert_hash", "typed_python/TupleOrListOfType.cpp:hash"]}
{"id": "C54", "title": "Slices of ListOf and TupleOf are Python's slices", "statement": "x[start:stop:step] on a ListOf or TupleOf, interpreted or compiled, has exactly the elements that the same slice of a Python sequence has, in the same order, and a step of 0 raises ValueError.", "quantifier": "every sequence and every start, stop and step, present or omitted, of any sign and size", "why_tests_cant": "Bounds and steps are arbitrary integers; compiled code computes with 64 bits.", "anchors": ["typed_python/PyTupleOrListOfInstance.cpp:mp_subscript_concrete", "typed_python/compiler/type_wrappers/tuple_of_wrapper.py:list_or_tupleof_of_slice"]}
{"id": "C55", "title": "Well-formed dates are read as the instant they denote", "statement": "Parsing without a format reads every ISO 8601 date, with or without a time and an offset, and every written date such as 'January 5, 2020 2:30 pm', as exactly the instant it denotes; with a time zone as an argument, as that time on the clocks of that zone.", "quantifier": "every date and time, in each of the spellings the parser documents", "why_tests_cant": "All dates times all times times dozens of spellings; a rule for one spelling can capture another.", "anchors": ["typed_python/lib/datetime/date_parser.py:DateParser.parse", "typed_python/lib/datetime/date_parser.py:DateParser.parse_iso_str", "typed_python/lib/datetime/date_parser.py:DateParser.parse_non_iso"]}
{"id": "C56", "title": "Parsing accepts only dates that exist", "statement": "Whatever the text and the format, parsing either raises ValueError or returns the timestamp of a date and time that exist, in the time zone that was given or that the text names.", "quantifier": "every text, every format and every time zone", "why_tests_cant": "Texts are unbounded; tests try a few malformed ones.", "anchors": ["typed_python/lib/datetime/date_parser.py:DateParser.parse", "typed_python/lib/datetime/date_parser.py:DateParser.parse_with_format"]}
{"id": "C57", "title": "Searching in text answers what Python answers", "statement": "In compiled code, find, rfind, index, rindex, count, startswith, endswith and 'in' on str and bytes, with any bounds, give exactly the answers Python gives, whatever the widths in which the texts are stored.", "quantifier": "every text, every text searched for, every start and stop, present or omitted, of any sign and size", "why_tests_cant": "Texts and bounds are unbounded; each pair of storage widths takes its own path through the code.", "anchors": ["typed_python/StringType.cpp:find", "typed_python/StringType.cpp:rfind", "typed_python/StringType.cpp:count", "typed_python/compiler/type_wrappers/bytes_wrapper.py:bytes_find", "typed_python/compiler/type_wrappers/bytes_wrapper.py:bytes_count", "typed_python/compiler/type_wrappers/string_wrapper.py:strStartswith"]}
{"id": "C58", "title": "Splitting and joining text answers what Python answers", "statement": "In compiled code, split, rsplit, splitlines, join, partition and rpartition on str and bytes give exactly the pieces Python gives, and joining the pieces of a split with its separator gives the text back.", "quantifier": "every text, every separator or none, and every limit", "why_tests_cant": "Texts are unbounded; the pieces depend on overlapping separators, runs of whitespace and the limit.", "anchors": ["typed_python/BytesType.cpp:split", "typed_python/BytesType.cpp:rsplit", "typed_python/BytesType.cpp:splitlines", "typed_python/BytesType.cpp:join", "typed_python/StringType.cpp:split", "typed_python/StringType.cpp:rsplit", "typed_python/StringType.cpp:splitlines", "typed_python/StringType.cpp:join", "typed_python/compiler/type_wrappers/bytes_wrapper.py:bytes_partition", "typed_python/compiler/type_wrappers/string_wrapper.py:strPartition"]}
{"id": "C59", "title": "Rewriting text answers what Python answers", "statement": "In compiled code, replace, strip, lstrip, rstrip, center, ljust, rjust, expandtabs and zfill on str and bytes give exactly the text Python gives, and a fill that is not one character long raises TypeError.", "quantifier": "every text, every text to replace and its replacement, every limit, width and tab size, and every set of characters to strip", "why_tests_cant": "Texts, widths and limits are unbounded; parity, signs and empty texts each have their own rule.", "anchors": ["typed_python/compiler/type_wrappers/bytes_wrapper.py:bytes_replace", "typed_python/compiler/type_wrappers/bytes_wrapper.py:bytes_center", "typed_python/compiler/type_wrappers/bytes_wrapper.py:bytes_expandtabs", "typed_python/compiler/type_wrappers/bytes_wrapper.py:bytes_zfill", "typed_python/compiler/type_wrappers/string_wrapper.py:strReplace", "typed_python/compiler/type_wrappers/string_wrapper.py:strCenter", "typed_python/compiler/type_wrappers/string_wrapper.py:strExpandtabs", "typed_python/compiler/type_wrappers/string_wrapper.py:strZfill", "typed_python/BytesType.cpp:strip", "typed_python/StringType.cpp:strip"]}
{"id": "C60", "title": "Items and slices of text are Python's", "statement": "In compiled code, x[i] and x[lower:upper] on str and bytes give exactly the character, integer or text Python gives, for bounds of any sign and size, present or omitted, whether the operands are literals or computed; an index outside the text raises IndexError.", "quantifier": "every text, every index and every pair of bounds, and every combination of literals and computed operands", "why_tests_cant": "Texts and bounds are unbounded; each combination of operands known to the compiler takes its own path.", "anchors": ["typed_python/compiler/type_wrappers/string_wrapper.py:convert_getslice", "typed_python/compiler/type_wrappers/string_wrapper.py:convert_getitem", "typed_python/compiler/type_wrappers/bytes_wrapper.py:convert_getslice", "typed_python/compiler/type_wrappers/bytes_wrapper.py:convert_getitem", "typed_python/StringType.cpp:getsubstr", "typed_python/_runtime.cpp:nativepython_runtime_bytes_getslice_int64"]}
{"id": "C61", "title": "Compiled generators produce what Python's produce", "statement": "Calling next() any number of times on a compiled generator gives the same values, the same exceptions and the same end as on the Python generator of the same function, and has the same effects in the same order; whatever happens between the calls.", "quantifier": "every generator function, every state and every history of calls, with arbitrary changes of the world between them", "why_tests_cant": "Programs are unbounded: every nesting of loops, branches and try statements with yields in any position, resumed at any of them.", "anchors": ["typed_python/compiler/generator_codegen.py:GeneratorCodegen", "typed_python/generator.py:Generator", "typed_python/python_ast_analysis.py:countYieldStatements"]}
{"id": "C62", "title": "Rewritten 'with' blocks and 'for' loops do what Python's do", "statement": "A 'with' block in compiled code enters and leaves its manager exactly as Python does, on every way out of the block; a 'for' loop inside a generator takes its items, its 'else' block, break and continue exactly as Python does; nested in one another in any way.", "quantifier": "every program, every behaviour of the managers and iterators, and every history of calls to a generator", "why_tests_cant": "Nestings of blocks, ways out of them and exceptions raised by managers and iterators multiply without bound.", "anchors": ["typed_python/compiler/withblock_codegen.py:expandWithBlockIntoTryCatch", "typed_python/compiler/for_loop_codegen.py:rewriteForLoops", "typed_python/compiler/generator_codegen.py:GeneratorCodegen"]}
{"id": "C63", "title": "Compiled functions follow Python's control flow", "statement": "A compiled function returns the value or raises the exception that the Python function does, after the same effects in the same order, for every nesting of if, while, for, try/except/else/finally, with, break, continue, return and bare raise.", "quantifier": "every function body, every behaviour of its primitive statements, conditions and iterators, every exception", "why_tests_cant": "Ways through nested loops, handlers and finally blocks multiply without bound; a test walks a few of them.", "anchors": ["typed_python/compiler/function_conversion_context.py:convert_statement_ast", "typed_python/compiler/function_conversion_context.py:convert_statement_list_ast", "typed_python/compiler/function_conversion_context.py:ControlFlowBlocks", "typed_python/compiler/native_compiler/native_ast_to_llvm_function_converter.py:FunctionConverter", "typed_python/_runtime.cpp:np_catch_exception", "typed_python/_runtime.cpp:np_clear_exc_info"]}
{"id": "C64", "title": "Compiled for loops over lists, texts, ranges and tuples visit what Python visits", "statement": "A compiled for loop over a list, a text, a range, an iterator of a list or a tuple visits the elements that Python's loop visits, in the same order, and runs the body, break, continue, return and else as Python does, however loops are nested.", "quantifier": "every nesting of loops, every body, every list and every start, stop and step of a range", "why_tests_cant": "The counting rewrite goes wrong only for certain bodies, nestings and extreme ranges; a test chooses a few.", "anchors": ["typed_python/compiler/for_loop_codegen.py:rewriteIntiterForLoop", "typed_python/compiler/function_conversion_context.py:convert_iteration_expression", "typed_python/compiler/type_wrappers/range_wrapper.py:RangeCls", "typed_python/compiler/type_wrappers/range_wrapper.py:RangeIterator", "typed_python/compiler/type_wrappers/tuple_of_wrapper.py:TupleOrListOfIterator"]}
{"id": "C65", "title": "Compiled comprehensions build what Python's build", "statement": "A list, set or dict comprehension in a compiled function collects the same elements in the same order as in Python, or raises the same exception, whatever its for and if clauses.", "quantifier": "every list of for and if clauses, every iterable, target, test and element expression, with their effects and exceptions", "why_tests_cant": "Clauses nest to any depth and may depend on each other; a test has a few comprehensions.", "anchors": ["typed_python/python_ast.py:evaluateFunctionDefWithLocalsInCells", "typed_python/compiler/function_conversion_context.py:ComprehensionConversionContextBase", "typed_python/compiler/function_conversion_context.py:ListComprehensionConversionContext"]}
{"id": "C66", "title": "Base classes are searched in Python's order", "statement": "A class statement of typed classes is accepted if Python would find an order of its base classes and typed_python's own restrictions are met, and then MRO is Python's method resolution order; issubclass and the position of a base agree with that order; otherwise TypeError is raised and no class is left behind.", "quantifier": "every history of class statements, with any number of classes and bases", "why_tests_cant": "The shape of an inheritance graph is unbounded; tests use diamonds of three or four classes.", "anchors": ["typed_python/HeldClassType.hpp:_computeMroSequence", "typed_python/HeldClassType.hpp:initializeMRO", "typed_python/HeldClassType.hpp:getMroIndex", "typed_python/HeldClassType.hpp:isSubclassOfConcrete", "typed_python/HeldClassType.cpp:HeldClass::Make", "typed_python/internals.py:ClassMetaclass", "typed_python/_types.cpp:MakeClassType"]}
{"id": "C67", "title": "Attributes of typed classes are those that Python's search finds", "statement": "An attribute of an instance of a typed class is what the first class of the method resolution order that defines the name says, whether it is a data member, method, property, class member, class method or static method; a call of a method runs the first overload, in that order, that takes the arguments; merging a class again after deserialization changes nothing.", "quantifier": "every history of class statements, every name and every set of overloads", "why_tests_cant": "What is found depends on all classes of the order and on the kinds of their definitions; tests override a few methods.", "anchors": ["typed_python/HeldClassType.hpp:mergeOwnFunctionsIntoInheritanceTree", "typed_python/HeldClassType.hpp:mergeInto", "typed_python/FunctionType.hpp:merge", "typed_python/PyClassInstance.cpp:tpGetattrGeneric", "typed_python/PyClassInstance.cpp:mirrorTypeInformationIntoPyTypeConcrete", "typed_python/internals.py:ClassMetaclass"]}
{"id": "C68", "title": "Instances keep the values of their data members", "statement": "An instance of a typed class behaves like a map from its data members to values: reading gives what was last set, whether interpreted code or code compiled for a base class set it; deleted and never-set members raise AttributeError, members declared nonempty always have a value; copies, deep copies, assignments and messages carry exactly the values that are there; instances do not affect each other; and dropping an instance destroys each value once.", "quantifier": "every history of class statements, every program of operations on instances in interpreted and compiled code, and every content of freshly allocated memory", "why_tests_cant": "Which flag bits and offsets are touched depends on the members of the class and of all its bases, and on which members have values; tests use a few classes with few members and mostly zeroed memory.", "anchors": ["typed_python/HeldClassType.cpp:HeldClass::updateBytesOfInitBits", "typed_python/HeldClassType.cpp:HeldClass::_updateAfterForwardTypesChanged", "typed_python/HeldClassType.cpp:HeldClass::setAttribute", "typed_python/HeldClassType.cpp:HeldClass::delAttribute", "typed_python/HeldClassType.cpp:HeldClass::constructor", "typed_python/HeldClassType.cpp:HeldClass::copy_constructor", "typed_python/HeldClassType.cpp:HeldClass::assign", "typed_python/HeldClassType.cpp:HeldClass::cmp", "typed_python/HeldClassType.cpp:HeldClass::checkInitializationFlag", "typed_python/HeldClassType.hpp:deepcopyConcrete", "typed_python/HeldClassType.hpp:serialize", "typed_python/HeldClassType.hpp:deserialize", "typed_python/PyClassInstance.cpp:tpSetattrGeneric", "typed_python/PyClassInstance.cpp:initializeClassWithDefaultArguments", "typed_python/compiler/type_wrappers/class_wrapper.py:memberPtr", "typed_python/compiler/type_wrappers/class_wrapper.py:convert_set_attribute", "typed_python/compiler/type_wrappers/class_wrapper.py:generateConstructor", "typed_python/compiler/type_wrappers/held_class_wrapper.py:convert_assign", "typed_python/compiler/type_wrappers/held_class_wrapper.py:convert_copy_initialize"]}
{"id": "C69", "title": "Compiled calls run the method of the object's own class", "statement": "When compiled code calls a method of an object that it knows as an instance of some class, the method that runs is the one of the object's own class for that signature, whatever base class the object is known as, however it came to be known so (made, cast up, down or across, received in a message), whether subclasses are defined before or after the code is compiled, and however many other methods are compiled in the meantime; a cast to a class succeeds if and only if the object's class inherits from it.", "quantifier": "every program of class statements, loads of compiled code, creations, casts and calls, with any number of classes and signatures and any code that is compiled in the middle of a call", "why_tests_cant": "Slots are numbered by the order in which code is loaded and tables are copied, grown and filled lazily, so a wrong index shows only for particular orders of class definitions, compilations and casts in multiple inheritance; tests have a handful of them.", "anchors": ["typed_python/HeldClassType.hpp:ClassDispatchTable", "typed_python/HeldClassType.hpp:HeldClass::initializeMRO", "typed_python/HeldClassType.hpp:HeldClass::allocateMethodDispatch", "typed_python/HeldClassType.hpp:HeldClass::dispatchTableAs", "typed_python/HeldClassType.cpp:allocateUpcastDispatchTables", "typed_python/ClassType.hpp:Class::initializeInstance", "typed_python/ClassType.hpp:Class::deserialize", "typed_python/_runtime.cpp:np_compileClassDispatch", "typed_python/_runtime.cpp:np_classObjectDowncast", "typed_python/compiler/type_wrappers/class_wrapper.py:ClassWrapper.dispatchToSingleOverload", "typed_python/compiler/type_wrappers/class_wrapper.py:ClassWrapper.withDispatchIndex", "typed_python/compiler/type_wrappers/class_wrapper.py:ClassWrapper.convert_to_type_with_target", "typed_python/compiler/type_wrappers/class_wrapper.py:stripClassDispatchIndex", "typed_python/compiler/python_to_native_converter.py:compileSingleClassDispatch", "typed_python/compiler/native_compiler/loaded_module.py"]}
{"id": "C70", "title": "isinstance and issubclass in compiled code", "statement": "isinstance(x, T) and issubclass(C, T) in compiled code are true exactly when the type of x, or C, inherits from T, whatever the compiler knows of the two types, also for classes that are defined after the code was compiled; a conversion or branch that the compiler leaves out as impossible is never needed.", "quantifier": "every history of class statements before and after the question is compiled, all pairs of known types and of types known up to a base class, and all types that the operands have when the question is asked", "why_tests_cant": "The compiler must foresee every class that could be defined later: finality, data members and class members of both types decide whether a common subclass can exist; tests define the classes first and ask about those.", "anchors": ["typed_python/compiler/type_wrappers/class_wrapper.py:_classCouldBeInstanceOf", "typed_python/compiler/type_wrappers/class_wrapper.py:classCouldBeInstanceOf", "typed_python/compiler/type_wrappers/subclass_of_wrapper.py:SubclassOfWrapper", "typed_python/compiler/type_wrappers/python_type_object_wrapper.py:PythonTypeObjectWrapper", "typed_python/compiler/type_wrappers/isinstance_wrapper.py:IsinstanceWrapper", "typed_python/internals.py:ClassMetaclass"]}
{"id": "C71", "title": "Encoding and decoding text in compiled code", "statement": "In compiled code text.encode() gives the UTF-8 of the text and data.decode() of the UTF-8 of a text gives that text, so that encoding and decoding are inverse; encoding stays within the memory that it allocates, whatever the characters are, and decoding arbitrary bytes ends with text or an exception.", "quantifier": "all texts, stored with one, two or four bytes per character, all byte strings and all error handlers that are not passed on to Python", "why_tests_cant": "The branches depend on each character's range and on the width of the text's cells, and decoding makes three passes that must agree about where each sequence ends; tests use a few short texts.", "anchors": ["typed_python/_runtime.cpp:nativepython_runtime_str_encode", "typed_python/_runtime.cpp:encodeUtf8", "typed_python/_runtime.cpp:nativepython_runtime_bytes_decode", "typed_python/StringType.cpp:bytesPerCodepointRequiredForUtf8", "typed_python/StringType.cpp:countUtf8Codepoints", "typed_python/StringType.cpp:decodeUtf8To", "typed_python/StringType.cpp:createFromUtf8"]}
{"id": "C72", "title": "Text made by compiled code is stored, compared and hashed by its characters", "statement": "However compiled code makes a text - from Python, by chr, decoding, joining, slicing, splitting, replacing, padding and so on - no character is cut off in its cells; == and < of two texts depend on their characters only, and are a total order; and texts with the same characters are the same key of a dictionary.", "quantifier": "all texts that any sequence of text operations makes, of any length and any mixture of character widths", "why_tests_cant": "The width of the cells depends on how the text was made, and an empty text can be stored in two ways; tests compare texts that were made in the same way.", "anchors": ["typed_python/StringType.cpp:singleFromCodepoint", "typed_python/StringType.cpp:StringType::constructor", "typed_python/StringType.cpp:StringType::cmpStatic", "typed_python/StringType.cpp:StringType::cmpStaticEq", "typed_python/StringType.cpp:join", "typed_python/StringType.cpp:getsubstr", "typed_python/StringType.hpp:hash_static", "typed_python/PyStringInstance.hpp", "typed_python/_runtime.cpp:nativepython_runtime_string_chr"]}
{"id": "C73", "title": "Questions about the characters of text and bytes in compiled code", "statement": "In compiled code isalpha, isalnum, isdecimal, isdigit, isnumeric, isspace, isprintable, islower, isupper and istitle of a text say what Python's rules for text make of the answers for its single characters, which are those that the packed table was generated from; the questions about bytes say the same with the letters, digits and spaces of ASCII, so that ASCII text and its bytes get the same answers.", "quantifier": "all texts of Unicode characters and all byte strings, and every Python that the table may be generated with", "why_tests_cant": "There are 1,114,112 characters, packed in runs whose lengths are kept in sixteen bits and unpacked at start-up; tests ask about a few of them.", "anchors": ["typed_python/StringType.cpp:isalpha", "typed_python/StringType.cpp:isalnum", "typed_python/StringType.cpp:isdigit", "typed_python/StringType.cpp:islower", "typed_python/StringType.cpp:isupper", "typed_python/StringType.cpp:istitle", "typed_python/UnicodeProps_3.7.4.hpp:initialize_uprops", "unicodeprops.py", "typed_python/compiler/type_wrappers/bytes_wrapper.py:bytes_isalnum", "typed_python/compiler/type_wrappers/bytes_wrapper.py:bytes_istitle"]}
{"id": "C74", "title": "Changing the case of text and bytes in compiled code", "statement": "In compiled code upper, lower, casefold, capitalize, swapcase and title of a text give what Python makes of its characters, also where one character becomes several, and stay within the memory that they allocate; of bytes they change the letters of ASCII and nothing else, as they change ASCII text.", "quantifier": "all texts, stored with one, two or four bytes per character, all byte strings, and every table of case changes that Python may have", "why_tests_cant": "The memory grows by steps that depend on which characters become several and where; and whether the result fits the cells of the old text, or a sigma ends a word, depends on the whole text.", "anchors": ["typed_python/StringType.cpp:unicode_generic", "typed_python/StringType.cpp:capitalize_generic", "typed_python/StringType.cpp:swapcase_generic", "typed_python/StringType.cpp:title_generic", "typed_python/StringType.cpp:StringType::upper", "typed_python/BytesType.cpp:BytesType::lower", "typed_python/BytesType.cpp:BytesType::capitalize", "typed_python/BytesType.cpp:BytesType::swapcase", "typed_python/BytesType.cpp:BytesType::title"]}
{"id": "C75", "title": "Numbers from text, and text from numbers, in compiled code", "statement": "In compiled code int(text) and float(text) read every text and every byte string that says a number, with spaces around it, a sign, underscores between digits, a point and an exponent, or infinity and nan in any case, as that number, and refuse every other; str of an integer is its usual text and is read back as the same integer; the zeros at the end of the text of a float are dropped without changing the number.", "quantifier": "all texts and byte strings, all integers of sixty-four bits, and all texts that a number with decimals or an exponent may have", "why_tests_cant": "The texts are unboundedly many, and a state machine that mixes up two states refuses all the texts that one thinks of and accepts others; arrays of fixed size have room for all but the longest texts.", "anchors": ["typed_python/StringType.cpp:StringType::to_int64", "typed_python/StringType.cpp:StringType::to_float64", "typed_python/BytesType.cpp:BytesType::to_int64", "typed_python/BytesType.cpp:BytesType::to_float64", "typed_python/_runtime.cpp:nativepython_int64_to_string", "typed_python/_runtime.cpp:nativepython_uint64_to_string", "typed_python/_runtime.cpp:np_str_to_int64", "typed_python/_runtime.cpp:np_bytes_to_float64", "typed_python/util.hpp:remove_trailing_zeros_pystyle", "typed_python/compiler/type_wrappers/arithmetic_wrapper.py:convert_to_type_with_target"]}
{"id": "C76", "title": "The text of a float is read back as the same float", "statement": "In compiled code str(x) of a float fits in the array that it is written to, and float(str(x)) is x again, for every finite float with its sign, for infinities and for nan; so different floats have different texts.", "quantifier": "all doubles, normal and subnormal, of either sign", "why_tests_cant": "There are 2^64 doubles, seventeen digits are just enough for them, and the text is made in twenty-two ways that depend on the size, after which zeros are dropped from it.", "anchors": ["typed_python/_runtime.cpp:nativepython_float64_to_string", "typed_python/util.hpp:remove_trailing_zeros_pystyle", "typed_python/StringType.cpp:StringType::to_float64", "typed_python/_runtime.cpp:np_str_to_float64"]}
{"id": "C77", "title": "A deep copy is a copy in memory of its own", "statement": "deepcopy(x) returns an equal value in which every typed object that x reaches was copied exactly once, so that what was shared is shared in the same way, no pointer leads back to the old objects, and every refcount is the number of pointers to its object. deepcopyContiguous(x) does this in one block whose size deepBytecount(x) gives exactly, and writes nothing outside it.", "quantifier": "all graphs of lists, tuples, texts, bytes, dicts, sets, alternatives, classes and OneOfs, with any sharing and any refcounts", "why_tests_cant": "Counting and copying are two walks written separately for each type, which take the parts in different orders and remember what they met at different times; they must agree for every graph, and a disagreement writes behind a block.", "anchors": ["typed_python/_types.cpp:deepcopyContiguous", "typed_python/TupleOrListOfType.hpp:deepcopyConcrete", "typed_python/ConstDictType.hpp:deepBytecountConcrete", "typed_python/hash_table_layout.hpp:deepcopy", "typed_python/Slab.hpp:allocate", "typed_python/Memory.hpp:bytesRequiredForAllocation", "typed_python/HeldClassType.hpp:deepcopyConcrete", "typed_python/CompositeType.hpp:deepcopyConcrete"]}
{"id": "C78", "title": "all, any, min and max in compiled code answer as in Python", "statement": "In compiled code all(x) and any(x) answer as in Python, also when asking an item raises, and take no more items than they need. min and max of an iterable or of arguments return the first of the smallest or largest items, by their keys if a key function is given, which is called once for each; without items they raise ValueError or return the default.", "quantifier": "all iterables of any length, all truth values, comparisons and key functions, including those that raise", "why_tests_cant": "Which item is returned depends on the order of all comparisons, and equal items can only be told apart by their identity; lists of two items are too short to tell any from all.", "anchors": ["typed_python/compiler/type_wrappers/all_any_wrapper.py:AllWrapper", "typed_python/compiler/type_wrappers/all_any_wrapper.py:AnyWrapper", "typed_python/compiler/type_wrappers/min_max_wrapper.py:i_min", "typed_python/compiler/type_wrappers/min_max_wrapper.py:i_max_key_default", "typed_python/compiler/type_wrappers/min_max_wrapper.py:MinMaxWrapper"]}
{"id": "C79", "title": "Objects live exactly as long as something refers to them", "statement": "Lists, tuples, dicts, alternatives, class instances, cells and strings are freed when the last variable, member or element that refers to them goes away, and not before. Assigning, appending, deleting and clearing never free an object that is still referred to, never free one twice, and leave every other value as it was.", "quantifier": "all programs of copies, assignments, member and element changes on values of any nesting, and all states of memory with exact counts", "why_tests_cant": "A wrong count shows only later and elsewhere, as a leak or as memory that another object overwrites; which order of copying and destroying is safe depends on how objects hold each other.", "anchors": ["typed_python/TupleOrListOfType.cpp:TupleOrListOfType::assign", "typed_python/OneOfType.cpp:OneOfType::assign", "typed_python/CompositeType.cpp:CompositeType::assign", "typed_python/HeldClassType.cpp:HeldClass::assign", "typed_python/HeldClassType.cpp:HeldClass::setAttribute", "typed_python/AlternativeType.cpp:Alternative::assign", "typed_python/compiler/type_wrappers/refcounted_wrapper.py:convert_assign", "typed_python/compiler/type_wrappers/held_class_wrapper.py:convert_assign"]}
{"id": "C80", "title": "Local variables of compiled functions behave as in Python", "statement": "When a function is compiled, reading a local variable gives the value last assigned to it, and raises when it is not bound, exactly when the interpreter would; whichever branches, loops, exceptions, handlers, finally blocks and type tests were passed on the way. Compiled code never takes the value of a variable for one of another type and never destroys a value that is not there.", "quantifier": "all functions of assignments, branches, loops, try statements, type tests and returns, all types and values, and all executions", "why_tests_cant": "The compiler keeps a set of beliefs about each variable and leaves out checks that follow from them. A belief that is wrong on one path shows only in functions that take this path and read the variable afterwards.", "anchors": ["typed_python/compiler/function_stack_state.py:FunctionStackState", "typed_python/compiler/function_stack_state.py:becomeMerge", "typed_python/compiler/function_stack_state.py:restrictTypeFor", "typed_python/compiler/function_conversion_context.py:assignToLocalVariable", "typed_python/compiler/function_conversion_context.py:restrictByCondition", "typed_python/compiler/function_conversion_context.py:convert_statement_ast", "typed_python/compiler/expression_conversion_context.py:namedVariableLookup", "typed_python/compiler/expression_conversion_context.py:recastVariableAsRestrictedType", "typed_python/compiler/python_ast_analysis.py:computeAssignedVariables", "typed_python/compiler/merge_type_wrappers.py:mergeTypes"]}
{"id": "C81", "title": "Arrays and matrices hold the elements that linear algebra says", "statement": "Operators on arrays and matrices work element by element, sums and products are those of linear algebra, and making, copying, transposing and flattening give the elements one expects in values of their own. Rows and diagonals are views: what is done to them is done to the matrix and to nothing else. An operation in place changes its left operand and nothing else, also when both operands are views of one matrix. No program reads or writes memory outside of the lists of its arrays and matrices.", "quantifier": "all programs of calls on arrays and matrices, all shapes, elements and element types, and all ways in which views share elements", "why_tests_cant": "Each value is a list with an offset and strides, read through unchecked pointers. A wrong stride or offset shows only for views with that layout, and an access out of bounds may show nothing at all.", "anchors": ["typed_python/array/array.py:Array", "typed_python/array/array.py:Matrix", "typed_python/array/array.py:__iadd__", "typed_python/array/array.py:_inplaceBinop", "typed_python/array/array.py:_inplaceUnaryOp", "typed_python/array/array.py:toList", "typed_python/array/array.py:transpose", "typed_python/array/array.py:diagonal", "typed_python/array/array.py:getCanonicalForm", "typed_python/array/array.py:__matmul__", "typed_python/array/array.py:__rmatmul__", "typed_python/array/fortran.py:axpy", "typed_python/array/fortran.py:gemm", "typed_python/array/fortran.py:gemv"]}
{"id": "C82", "title": "Types and objects that see each other get one group and a stable hash", "statement": "Asking for the identity of a type or function puts everything it can see into groups. Two objects are in one group exactly if each can be reached from the other, every object has one group for good, and its members, order and hash do not depend on which objects were asked for before, in which order, or by how many threads at once. A request always returns, raises none of the internal errors, and leaves nothing that can be reached without a group. Another process with the same code gets the same hashes, and if hashing has no collisions, equal hashes mean that the objects look the same all the way down.", "quantifier": "all finite graphs of types and objects, all sequences of requests, and all interleavings of the threads that make them", "why_tests_cant": "Which threads meet inside of a search is a matter of timing, and the order of a search depends on what was asked before. A cached compilation is reused by its hash, so a hash that depends on either shows only as a cache miss or as wrong code in another process.", "anchors": ["typed_python/MutuallyRecursiveTypeGroup.cpp:buildCompilerRecursiveGroup", "typed_python/MutuallyRecursiveTypeGroup.cpp:_computeHashAndInstall", "typed_python/MutuallyRecursiveTypeGroup.cpp:computeTopoHash", "typed_python/MutuallyRecursiveTypeGroup.cpp:computeHash", "typed_python/MutuallyRecursiveTypeGroup.cpp:computeRoot", "typed_python/MutuallyRecursiveTypeGroup.cpp:pushGroup", "typed_python/MutuallyRecursiveTypeGroup.cpp:doOneStep", "typed_python/MutuallyRecursiveTypeGroup.cpp:ensureRecursiveTypeGroup"]}
{"id": "C83", "title": "A OneOf keeps the object it is given if one of its options is made for it", "statement": "The options of a OneOf are the types and constants named, nested ones spelled out, each once and in the order first named. An object is converted to the first option at the strictest conversion level at which any option takes it, so that allowing freer conversions never changes what an object becomes, and an explicit call never parses or formats text. An object whose own type is an option comes back unchanged, wherever that option stands. A number that some option holds by an upcast is not converted in any freer way. The default is that of the first option that has one.", "quantifier": "all lists of options with any nesting, all objects and all conversion levels", "why_tests_cant": "The order of options, the levels and the kinds of objects multiply: tests try a handful of pairs, while every OneOf a program defines has its own order, and a wrong choice yields a plausible value of another type.", "anchors": ["typed_python/OneOfType.cpp:Make", "typed_python/OneOfType.cpp:constructor", "typed_python/PyOneOfInstance.hpp:copyConstructFromPythonInstanceConcrete", "typed_python/PyOneOfInstance.hpp:tryToConvert", "typed_python/PyOneOfInstance.hpp:extractPythonObjectConcrete", "typed_python/PyInstance.cpp:pyValCouldBeOfType", "typed_python/PyInstance.cpp:copyConstructFromPythonInstance", "typed_python/PyRegisterTypeInstance.hpp:compare_to_python_concrete", "typed_python/PyValueInstance.hpp:pyValCouldBeOfTypeConcrete", "typed_python/RegisterTypes.hpp:isValidConversion"]}
{"id": "C84", "title": "A type function runs once for each set of arguments and gives one type", "statement": "However many threads call a type function, and however type functions call each other in cycles, the function runs at most once for each set of arguments, and all calls with these arguments give the same type or raise the same exception, for good. A call from inside for what is just being made gives its Forward, which is defined as the type in the end; code outside never gets a Forward. No call waits for ever. The arguments noted for a type give that type again, and the order of keyword arguments makes no difference.", "quantifier": "all type functions, as any code that calls type functions and makes types, all numbers of threads and all interleavings", "why_tests_cant": "Which of two threads makes a type first, and what the other sees meanwhile, is a matter of timing; a type made twice looks the same in a test and fails only when instances of the two meet.", "anchors": ["typed_python/type_function.py:_buildTypeFunction", "typed_python/type_function.py:mapArg", "typed_python/type_function.py:isTypeFunctionType", "typed_python/type_function.py:reconstructTypeFunctionType", "typed_python/type_function.py:makeTypeFunction", "typed_python/type_function.py:_typeFunctionMemo", "typed_python/compiler/runtime_lock.py:runtimeLock"]}
{"id": "C85", "title": "The compiler cache survives crashes and many processes", "statement": "However many processes use a compiler cache directory at once, and wherever any of them dies, a stored module is seen whole or not at all, with all modules that it needs, and never changes. A process that starts reads the cache without an exception and is offered just the functions of modules that are not marked invalid and need none that is. Code that a process added is found by all that start later. Looking for a function ends, loads all that it needs, marks only what cannot be loaded, and either makes the function callable or makes the cache forget it so that it is compiled anew. The code that runs for a function stays the same while the process lives.", "quantifier": "all numbers of processes, all interleavings of their steps, all crash points down to half-written files, all dependency graphs that arise, and all sets of modules that a process cannot load", "why_tests_cant": "Tests use one or two processes and no crashes in the midst of writing; which module fails to load depends on how the user's code changed since it was compiled.", "anchors": ["typed_python/compiler/native_compiler/compiler_cache.py:CompilerCache", "typed_python/compiler/native_compiler/compiler_cache.py:markModuleHashInvalid", "typed_python/compiler/native_compiler/compiler_cache.py:loadForSymbol", "typed_python/compiler/native_compiler/compiler_cache.py:loadModuleByHash", "typed_python/compiler/native_compiler/compiler_cache.py:addModule", "typed_python/compiler/native_compiler/compiler_cache.py:loadNameManifestFromStoredModuleByHash", "typed_python/compiler/native_compiler/compiler_cache.py:writeModuleToDisk", "typed_python/compiler/native_compiler/compiler_cache.py:function_pointer_by_name", "typed_python/compiler/native_compiler/compiler_cache.py:hasSymbol"]}

# Design

A Rocq (Coq 8.16.1) model of the semantic cores of `typed_python`, with
machine-checked theorems for the properties listed in `properties.jsonl`.

## Layout and conventions

* `rocq/theories/<Area>_Model.v`: the code, function by function. Every definition
  cites the file and lines in `/repo` it models and states its simplifications.
  No proofs there.
* `rocq/theories/<Area>_Spec.v` (or a `Spec` section at the head of the property
  file): small independent specification, written without the model's helpers.
* `rocq/theories/<Area>_Proofs.v`: lemmas.
* `rocq/theories/<Area>_Props.v`: the property theorems, each closed by `exact`
  of a lemma, followed by `Print Assumptions`, with an `Example` showing a
  concrete non-trivial case that meets the hypotheses.
* Where the faithful model violates a property, the counterexample is proved as
  `…_refuted` and the part that does hold as `…_partial`.
* Exceptions are values (`Err …`). Loops without a structural measure run on
  fuel with an explicit out-of-fuel value, and a theorem says that value never
  occurs. Machine integers are `Z`/`N` with wrap-around written out where the
  code can reach it.

## Trusted base

* Coq 8.16.1's kernel (and `coqchk`), with no axioms of our own. What
  `Print Assumptions` prints is listed per property in the table at the end of
  this file; the intention is "Closed under the global context" everywhere.
* The transcription from C++/Python to Gallina, whose citations let a reader
  check it line by line.
* CPython, the C++ compiler, LZ4, OpenSSL, the allocator, reference counting and
  raw memory layout are not modelled unless a section below says so.

## Plan per property

| Id | Modelled | Method |
|----|----------|--------|
| C01 | LEB128 writer and reader over byte lists, 64-bit wrap in the reader | induction on the value by 7-bit digits |
| C02 | zig-zag writer/reader on `Z` with 64-bit wrap | reduction to C01, `lia` on the range |
| C03 | skipping and copying of wire messages over byte lists, fuel = stream length | induction on an inductive grammar of messages |
| C04 | type expressions and values; `serialize`/`deserialize` for each type | induction on values / types, C01–C03 |
| C05 | heap of lists, memo table by pointer identity | simulation between writer memo and reader memo |
| C06 | tuple deserialization by field number | C03 + C04 |
| C07 | integer block encoder/decoder, two's complement blocks | strong induction on list length |
| C08 | writer, workers, waiting/working sets as an interleaving transition system | inductive invariant; progress theorem |
| C09 | hash table layout with tombstones, resize, compaction; Dict on top | representation invariant + refinement to a finite map |
| C10 | probe sequence with 64-bit arithmetic | full-period argument for x→5x+1 mod 2^k, invariant "an EMPTY slot exists" |
| C11 | slot walk | invariant on item slots |
| C12 | rebuild after deserialization | same invariant |
| C13 | ConstDict sorted array, binary search, merge, subtract | sortedness invariant, refinement to a map |
| C14 | ConstDict cmp/hash | list-level characterisation |
| C15 | Node/SortedDict functions on trees with counts | BST invariant, refinement |
| C16 | explicit-stack iterator | in-order traversal equality |
| C17 | rebalance | look for counterexample; bound otherwise |
| C18 | quicksort with LCG pivots over list/array | permutation + sortedness, fuel bound |
| C19 | searchSorted | loop invariant; the documented -1 is refuted |
| C20 | queue methods as small-step programs over two locks | inductive invariant over an interleaving semantics, ghost history |
| C21 | same model | invariant "isEmptyLock held iff empty or someone about to release" |
| C22 | job chunks, any schedule | permutation of chunks, min of failing indices |
| C23 | chrono.py | `Z` arithmetic, era decomposition |
| C24 | chrono.py weekday functions | `lia`; refuted before 1969-12-28 |
| C25 | Date methods | C23 + finite month case analysis |
| C26 | time zones | C23 + offsets |
| C27 | formatter and parser | digit lemmas |
| C28 | pyMod/pyFloorDiv/pyLshift/pyRshift with two's complement | case analysis against `Z.div`, `Z.modulo`, `Z.shiftl` |
| C29 | both promotion tables | case analysis over the finite type set |
| C30 | isValidUpcast and value sets | interval inclusion; refuted for int→float |
| C31 | FunctionCallArgMapping | comparison with a declarative Python binding spec |
| C32 | mergeTypeWrappers over an abstract subsumption preorder | list induction |
| C33 | DirectedGraph | graph reachability |
| C34 | FunctionDependencyGraph | invariant over histories |
| C35 | HashAccumulator and type hashes | induction on types |
| C36 | cmp for the type fragment | induction on types |
| C37 | ListOf operations with capacity | refinement to lists |
| C38 | Date constructor and its checks | case analysis; refuted for negative numbers |
| C39 | Date comparison operators | C23: the order of day numbers |
| C40 | date range iterators for the four step kinds | induction on the number of steps; reversed ranges refuted |
| C41 | validateSerializedObject over byte lists | the grammar of C03, both directions |
| C42 | OneOf and Alternative deserialization against a larger type | C04 with a type relation "gains options" |
| C43 | deserialization of arbitrary bytes | progress measure on the stream; corrupt messages as witnesses |
| C44 | compiled Dict operations (hash_table_implementation.py) beside the C++ ones | step-by-step simulation |
| C45 | Set operations, interpreted and compiled, over C09's table | refinement to predicates |
| C46 | comparison of a Set with a builtin set | characterisation; refuted |
| C47 | Dict equality, views | refinement of C09 |
| C48 | Dict from a mapping | C09; refuted when keys collide after conversion |
| C49 | decompressing reader | every decision tree of reads |
| C50 | compiled integer comparison after promotion | case analysis over types |
| C51 | overload selection | induction on the overload list |
| C52 | compare_to_python for typed containers | induction on types and Python values |
| C53 | compiled hash functions beside C35's | induction on types |
| C54 | slices, interpreted and compiled | against a declarative slice |
| C55 | the free-form date parser | tokenizer lemmas per spelling |
| C56 | the parser on arbitrary texts | inversion of every accepting path |
| C57 | find, rfind, count, startswith, … of compiled str and bytes | loop invariants, "stands at" specification |
| C58 | split, rsplit, splitlines, join, partition | inductive relations for Python's answers, shown to be functional |
| C59 | replace, strip, justification, tabs, zfill | one generic proof over an interface of text operations, two instances |
| C60 | items and slices of text, with the constant folding of the compiler | both clamps as the run of elements between the bounds of Python's slice |
| C61 | statements with an interpreter for Python and the rewriting of generator bodies into a resumable method | simulation by induction over programs, for all meanings of the primitive statements |
| C62 | the rewriting of `with` into `try` and of `for` into `while`, alone and before the rewriting of generators | simulation between languages: the rewritten program runs with auxiliary variables beside the state |
| C63 | the conversion of statements to native code with labels, try/catch, the slots `.control_flow*`, `.exc_occurred`, `.return_value` and the thread's exception state | simulation by induction over the program, with invariants for the slots of the surrounding `try` statements and the exception being handled |
| C64 | `rewriteIntiterForLoop`, the methods that count lists, ranges and iterators, the variables it adds per line, unrolled loops over tuples, the iterator of a range | a simulation of Python's loop by induction over the program and the turns, with the added variables of inner loops kept apart by their lines; arithmetic for ranges |
| C65 | the function that `evaluateFunctionDefWithLocalsInCells` makes of a comprehension, run with the loops of C64 | reduction to C64; order of tests by induction over the `if`s |
| C66 | `_computeMroSequence` with its chains and tails, `HeldClass::Make`, `getMroIndex`, over histories of class statements | invariant: the sets of tails are the tails of the chains, so each step is a step of C3; C3 is deterministic, sound and complete for linearizations |
| C67 | the maps that `mergeOwnFunctionsIntoInheritanceTree` builds, attribute lookup of instances and classes | invariant: a merged map holds the overloads of all classes of the order; case analysis of the lookup |
| C68 | bytes, offsets and initialisation flags of instances, with a ghost note of constructed members; interpreter and compiled code | simulation by maps from names to values: each step touches one member's cell (note, flag, bytes) and no other |
| C69 | dispatch tables with their cells (never written, empty, compiled), slots, upcast tables, tagged pointers, casts, lazy compilation that loads further code | simulation by pairs (class known, own class): all tables of a class have the same numbered signatures, each slot is empty and needed or holds the code of the implementing class, each pointer's index is the place of the known class in the object's order |
| C70 | the verdict of the compiler about two types (yes, no, depends) and the question that is left for run time | a later class that inherits from both contradicts finality, the single order of data members, or the agreement of class members; all by induction over histories of class statements |
| C71 | the encoder with its room for the result, the three passes of the decoder | UTF-8 given by a separate definition; each pass walks over the sequences of the encoded characters; for other bytes the passes stop at the same places |
| C72 | every operation that makes text, as one inductive family; comparison; hash of the cells | each operation keeps the cells wide enough, and keeps empty text null; comparison agrees with the first difference; texts put together have the least width |
| C73 | the program that packs the table, the packed table as it is shipped, the start-up code that unpacks it, the loops that look into it, the compiled functions for bytes | what the generator writes unpacks to what it was given, by induction over the characters; the shipped runs are checked by computation; each loop against a statement about all characters |
| C74 | one loop with the memory that it grows, for the four loops of the source; Python's tables as parameters; the loops for bytes | an invariant of the allocated memory, so that no write is beyond it; what is written against Python's methods, given by each character with what is before and after it |
| C75 | the state machines of `to_int64` and `to_float64` with the buffer, `strtod` up to the rounding, the printing of integers into arrays of fixed size, the dropping of zeros | a grammar of numbers; the invariant of each state is the part of the grammar behind it; completeness by running the machine along the grammar |
| C76 | doubles as multiples of the smallest, `sprintf` with exact rounding, the choice of the format, the dropping of zeros | the rounding error is at most half a unit of the seventeenth digit, two doubles are further apart than that; the text is in the grammar of C75 |
| C77 | values in place, objects behind addresses with refcounts, `Slab::allocate`, `deepcopy` and `deepBytecount` of each type with what they remember | both are walks of the graph, which meet each object once because an object that is not remembered has one pointer; the effect of a copy on the memory is composed; ends by the rank of an object |
| C78 | the loops over the items of an iterable, with what is left of it and the calls of the key function | induction on the list; the best so far is better than all before it and no worse than those behind |
| C79 | memory as variables and counted objects; copying, destroying and assigning nested values by both implementations, and programs of such steps | counts equal references, with those that are owed by the step in progress; destroying commutes with changing an object that stays alive; induction on the value assigned and on the program |
| C80 | the beliefs of the compiler about variables, the code it makes from them, and running both that code and the source | the two runs agree and what is believed is so, by mutual induction on statements and handlers, and running follows separate rules for what statements mean in Python; for loops what is believed at the fixed point is an invariant; a finally after an exception is run with weaker beliefs about the variables it mentions only |
| C81 | arrays and matrices as lists in a store with offsets and strides, unchecked pointers, the three routines of BLAS, and programs of calls | each loop changes exactly the places of its left operand, by induction on its length; an invariant of programs says that each matrix has a list of its own and each array is a view of a matrix or alone on its list, from which any two arrays share elements only at equal indices |
| C82 | the search for groups as a stack of frames with pending edges, the table of groups that all threads share, the walk that orders a group and its hash | an invariant of every search and of the table under steps of any thread: frames are strongly connected and each reaches those above it, every reference of a member is pending, taken or to a frame above; a finished frame is then a class; hashes are unique by induction on the groups below; a weight that falls with each step of a search and never rises by others bounds its steps; poison, the hash of a group without a clear root, spreads to all that sees it, so processes agree on it too |
| C83 | making the list of options, the loop over levels and options, the conversions to None, numbers, str, bytes and constants, and back; other types by parameters | the options are the first occurrences by induction on the arguments; the loop is shown equivalent to a least level and least index; an option that takes an object at level Signature gives it back, case by case; numbers by the theorems of C30 |
| C84 | the memo, the table of origins, the reentrant lock and the threads with their stacks of running functions, which are arbitrary code; the keys made of arguments | an invariant of every interleaving: the entries that are Forwards are the keys on the stack of the thread that has the lock, and every other entry is final; keys by uniqueness of sorting |
| C85 | the directories and files on disk, the writing of each file in two steps, the rename, the marks; the tables of each process; reading the cache, loading with what is needed, adding, and dying at any step | an invariant of every history: directories with final names are whole and need only older ones, and the tables of each process agree with them; both recursions by induction on the age of directories |

The status of each is in `MANIFEST.json`, together with a note on what a partial
claim lacks.

## What `Print Assumptions` lists

Every property theorem ends with `Print Assumptions`, and for every one of them,
C01 to the last, the answer is "Closed under the global context": no axiom of the
standard library or of any other library is used, and none is declared here.

`vcheck` reports seven `Coq.ssr.ssrunder.Under_rel.*` constants as library axioms.
They are fields of a module type in Coq's own ssreflect plugin library, which is
loaded with some standard-library files. No theorem depends on them.

## What is modelled, by area

| Files | Code in `/repo/typed_python` | Left out |
|-------|------------------------------|----------|
| `Chrono_*`, `DateTime_*`, `Calendar_Spec`, `Timezone_Proofs` | `lib/datetime/chrono.py`, `lib/datetime/date_time.py` | pytz's tables (a zone is a function), sub-second parts |
| `DateText_*` | `lib/datetime/date_formatter.py`, `lib/datetime/date_parser.py` | fractions of a second |
| `Wire_*` | `SerializationBuffer.hpp`, `DeserializationBuffer.hpp` message format | floats are opaque 64-bit words |
| `Serial_*` | `serialize`/`deserialize` of tuples, lists, dicts, sets, OneOf, Alternative, Class instances, pointers to shared objects | Python objects outside typed_python, functions and modules by name, type objects |
| `Compress_*`, `Decompress_*` | the block compressor's worker protocol and the reader's refill | LZ4 itself; memory model weaker than interleaving |
| `Hash_*`, `Set_*`, `Dict_Cmp_*` | `hash_table_layout.hpp`, `DictType`, `SetType`, `PyDictInstance.cpp`, `PySetInstance.cpp`, `hash_table_implementation.py` | reference counts, the allocator |
| `ConstDict_*`, `HashAcc_Model` | `ConstDictType.cpp`, `ConstDictType.hpp` | reference counts |
| `SortedDict_*`, `Sort_*` | `lib/sorted_dict.py`, `lib/sorting.py` | key types whose `<` is not an order |
| `Queue_*`, `Pmap_*` | `typed_queue.py`, `lib/pmap.py` | operating-system locks (atomic acquire and release), exceptions from thread creation |
| `Graph_*` | `compiler/directed_graph.py`, the dependency graph of `python_to_native_converter.py` | the inference that produces the edges |
| `Arith_*`, `Upcast_*` | integer operators, promotion tables, `isValidUpcast` | floating-point rounding |
| `Call_*`, `Merge_*` | `FunctionCallArgMapping.hpp`, overload choice, `merge_type_wrappers.py` | the conversion functions (parameters) |
| `Val_*`, `ValPy_*` | `cmp`, `hash`, `compare_to_python` and their compiled counterparts | user-defined methods |
| `ListOf_*`, `PyList*` | `TupleOrListOfType`, `PyTupleOrListOfInstance.cpp`, `list_of_wrapper.py`, `tuple_of_wrapper.py` | reference counts |
| `Text*` | `BytesType.cpp`, `StringType.cpp`, `bytes_wrapper.py`, `string_wrapper.py` | Unicode tables (parameters), texts of 2^31 elements |
| `PyStmt*`, `Gen_*`, `Lower_*` | `compiler/generator_codegen.py`, `generator.py`, `compiler/withblock_codegen.py`, `compiler/for_loop_codegen.py` (rewriteForLoops) | the renaming of variables to members, GeneratorAdaptor |
| `Flow_*` | `compiler/function_conversion_context.py` (statements), `native_ast.py` and its conversion to LLVM for branches, loops, labels, try/catch and finally, the exception state in `_runtime.cpp` | types of variables and their merging at joins, `assert`, `del`, destruction of temporaries |
| `PyLoop`, `Loop_*`, `Comp_*` | `compiler/for_loop_codegen.py` (rewriteIntiterForLoop), `convert_iteration_expression` (counting and unrolled loops), `range_wrapper.py`, comprehensions in `python_ast.py` and their conversion contexts | loops split by the type of a OneOf, classes that define the counting methods, generator expressions, the scope of a comprehension's variables |
| `Class_*` | `HeldClassType.hpp/.cpp` (order of bases, `Make`, merged functions), `PyClassInstance.cpp` (attribute lookup), `internals.py` (ClassMetaclass) | classes that are equal by structure, forwards, `__getattribute__`/`__getattr__`, default values |
| `Inst_*` | `HeldClassType.hpp/.cpp` (layout, flags, construction, copying, comparison, messages), `PyClassInstance.cpp` (setting and deleting), `class_wrapper.py`, `held_class_wrapper.py` (the same in compiled code) | reference counts, conversion of values, `__init__`/`__setattr__`/`__delattr__`/`__del__`, a class member that shadows a data member in compiled code |
| `Disp_*` | `HeldClassType.hpp/.cpp` (`ClassDispatchTable`, implementors), `ClassType.hpp`, `_runtime.cpp`, `_types.cpp` (pointers, casts, compiling a slot), `class_wrapper.py` (casts and calls), `python_to_native_converter.py` (`compileSingleClassDispatch`, forced methods) | several threads, code that fails to compile, reference counts, destructors, what the code of a method does |
| `Isa_*` | `class_wrapper.py` (`classCouldBeInstanceOf`), `subclass_of_wrapper.py`, `python_type_object_wrapper.py`, `isinstance_wrapper.py` | OneOf types, tuples of types, Python types, `cannotBeSubclass` (dead code) |
| `Utf8_*` | `_runtime.cpp` (`str_encode`, `bytes_decode`), `StringType.cpp` (`createFromUtf8` and its helpers) | encodings and handlers that are passed to Python |
| `TextCell_*` | `StringType.cpp` (constructor, `singleFromCodepoint`, comparison), `StringType.hpp` (hash), `PyStringInstance.hpp` | case changes, formatting and other text made by calling Python |
| `TextAsk_*` | `unicodeprops.py`, `UnicodeProps_3.7.4.hpp`, `StringType.cpp` (`isalpha` … `istitle`), `bytes_wrapper.py` (`bytes_isalnum` … `bytes_istitle`) | `isidentifier`, which calls Python |
| `TextCase_*` | `StringType.cpp` (`unicode_generic` … `title_generic`), `BytesType.cpp` (`lower` … `title`) | the tables of CPython; other locales |
| `TextNum_*` | `StringType.cpp`, `BytesType.cpp` (`to_int64`, `to_float64`), `_runtime.cpp` (`nativepython_int64_to_string` …, `np_str_to_int64` …), `util.hpp` (`remove_trailing_zeros_pystyle`) | rounding by `strtod`, the text of `Float32` |
| `FloatText_*` | `_runtime.cpp` (`nativepython_float64_to_string`) | `Float32`; other locales |
| `Copy_*` | `_types.cpp` (`deepcopyContiguous`), `Slab.hpp`, `Memory.hpp`, `deepcopyConcrete` and `deepBytecountConcrete` of each type, `hash_table_layout.hpp` (`deepcopy`) | type maps, `outSlabs`, Python objects, functions; the free store may reuse memory |
| `Best_*` | `all_any_wrapper.py`, `min_max_wrapper.py` | the conversion to a common type (C32), iterables that raise, the check of keyword arguments |
| `Life_*` | `copy_constructor`, `destroy` and `assign` of the types, `HeldClassType.cpp:setAttribute`/`delAttribute`, `ListOfType::append`/`remove`, `TypedCellType::clear`, `refcounted_wrapper.py` and the `convert_assign` of the other wrappers | `__del__`, PythonObjectOfType, functions, RefTo, atomicity of the counts, reallocation in append |
| `Vars_*` | `function_stack_state.py`, the statements of `function_conversion_context.py:convert_statement_ast` with their variable states, `namedVariableLookup`, `recastVariableAsRestrictedType`, `computeAssignedVariables` | constant conditions, `while True`, closures, generators, `with`, conversion of expressions other than reading variables; the types of operations are parameters taken to be right |
| `Matrix_*` | `array/array.py` and what `axpy`, `gemm` and `gemv` of `array/fortran.py` compute | `__invert__` (LAPACK), `__repr__`, operators that raise, rounding and the order of sums of floats, the compilation of calls of BLAS; the laws 1 * x = x, x * y = y * x and x + 0 = x are asked of the numbers |
| `Group_*` | `MutuallyRecursiveTypeGroup.cpp`: the search, building, ordering, hashing and installing of groups | `computeRoot`, the visitor and the hash functions are parameters; groups from the deserializer, changes of objects during a search, the guard against recursion; one round of the search is one step of the model, and two where a group is built and then installed |
| `OneOf_*` | `OneOfType.cpp`: `Make`, `constructor`; `PyOneOfInstance.hpp`; `pyValCouldBeOfType`, `copyConstructFromPythonInstance` and extraction for None, registers, str, bytes and Value | conversions to other types and of floats to integers are parameters; numpy numbers; Values of other types; level New inside of an option (a OneOf never uses it); the exception left pending by `PyFloat_AsDouble` |
| `TypeFun_*` | `type_function.py` | the names of Forwards; equality of arguments by `==`; floats, bytes and functions as arguments; other users of `runtimeLock`; the two reads of the memo at lines 88-89 are one step, and so are lines 113-122, of which only the last is seen without the lock |
| `CCache_*` | `compiler/native_compiler/compiler_cache.py` | the contents of modules apart from symbols, code and needs; the loading of shared objects; `LoadedModule`; clashes of uuids; errors of the file system; the check of lines 209-238; loading, and reading one module at start with what it needs, are single steps (in `run` all of the start is one step, in `start_among` others act in between); the order of `os.listdir` and of sets is that of insertion |

Not modelled at all: the inference and code generation of the compiler as a whole,
LLVM, reference counting and destructors, the import and type-identity machinery
(`MutuallyRecursiveTypeGroup`, `Codebase`, module copying), `PyInstance` conversions
other than those listed, the `array` package, and the direct-types C++ templates.

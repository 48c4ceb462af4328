# Formal model of jsons in Rocq (Coq 8.16.1)

## 1. Approach

`/repo/jsons` is read as text and mirrored function by function as total Gallina
functions with exceptions as values.  Every model definition cites the file and lines it
mirrors and says where it simplifies.  Only the Coq standard library is used.

Layers (all under `rocq/theories/`):

| files | contents |
|---|---|
| `PyBase`, `PyBaseFacts` | exceptions, result monad, ASCII strings, Python `int()`/`str()` on integers, insertion-ordered dicts |
| `KeyTransformersModel`, `KeySpec`, `KeyTransformersProofs`, `PropKeyTransformers` | `_key_transformers.py` |
| `DatetimeModel`, `DatetimeSpec`, `DatetimeProofs`, `PropDatetime` | `_datetime_impl.py`, the date/time/datetime (de)serializers, `strftime`/`strptime` for the patterns used |
| `LeafModel`, `LeafSpec`, `LeafProofs`, `LeafLaws`, `PropLeaf` | UUID, timedelta, timezone (de)serializers; binary64 rounding on integers |
| `MultitaskModel`, `MultitaskSpec`, `MultitaskProofs`, `PropMultitask` | `_multitasking.py` as a small-step system of workers |
| `LookupModel`, `RegistryModel`, `RegistrySpec`, `RegistryProofs`, `PropRegistry` | `_lizers_impl.py`, `_validation.py`, `_fork_impl.py`, `_extra_impl.py`, `_cache.py`, `StateHolder` as a state machine over API calls |
| `EngineTypes` | universe of Python values, types and classes; equality, hashing, `issubclass` |
| `EngineSer` | `dump` and all default serializers |
| `EngineDeser` | `load` and all default deserializers |
| `EngineEnv` | the registration tables of `__init__.py`; concrete environments for the examples |
| `EngineFacts`, `DumpProofs`, `AttrFacts`, `NullProofs`, `RewriteProofs`, `DumpLaws`; `DumpSpec`, `PropDump` | properties of `dump` |
| `DocumentSpec`, `TwiceProofs`, `PropTwice` | every dump is a document, dumping twice |
| `LoadFacts`, `LoadLaws`, `LoadObject`, `LoadTypes`, `LoadMeta`, `LoadSame`; `LoadSpec`, `PropLoad` | properties of `load` |
| `ConformSpec`, `ConformProofs`, `PropConform` | the type of loaded values, validators |
| `RoundTripSpec`, `RoundTripFacts`, `RoundTripProofs`, `RoundTripLaws`, `PropRoundTrip` | `load(dump(v), t) = v` |
| `KeyTripSpec`, `KeyTripProofs`, `KeyTripLaws`, `PropKeyTrip` | the same with a key transformer and its inverse |
| `ParallelModel`, `ParallelSpec`, `ParallelProofs`, `PropParallel` | load with the argument `tasks` |
| `VerboseSpec`, `VerboseFacts`, `VerboseProofs`, `VerboseLaws`, `PropVerbose` | verbose dumps and the '-meta' section |
| `ResolveModel`, `ResolveSpec`, `ResolveProofs`, `PropResolve` | names of classes: `get_cls_from_str`, imports, announcements |
| `ClassModel`, `ClassSpec`, `ClassProofs`, `PropClass` | class statements: `get_type_hints`, signatures and members along the MRO; gives the `cinfo` of the engine |
| `CacheModel`, `LoadHints`, `CacheProofs`, `PropCache` | the caches of annotations, shared dicts on a heap |
| `TerminationSpec`, `DumpTermination`, `LoadTermination`, `PropTermination` | which dumps and loads end |
| `OrderSpec`, `OrderProofs`, `PropOrder` | the order of keys in documents |
| `ErrorModel`, `ErrorSpec`, `ErrorProofs`, `ErrorLaws`, `PropError` | source, target and argument of DeserializationErrors |
| `LayoutModel`, `LayoutSpec`, `LayoutProofs`, `LayoutLaws`, `PropLayout` | the layout arguments of json.dumps (`jdkwargs`) |
| `CastSpec`, `CastProofs`, `CastLaws`, `PropCast` | casts to int, float, bool and str |
| `ParallelDumpModel`, `ParallelDumpSpec`, `ParallelDumpProofs`, `PropParallelDump` | dump with several tasks |
| `CutModel`, `CutSpec`, `CutProofs`, `CutLoadProofs`, `PropCut` | calls that are cut short |
| `HeapModel`, `HeapSpec`, `HeapProofs`, `HeapCycles`, `PropHeap` | dump with a heap |
| `HeapTrees`, `HeapSims`, `HeapRefine`, `PropRefine` | dump with a heap refines dump of trees |
| `DateTextSpec`, `DateTextProofs`, `PropDateText` | what texts of datetimes say, against the parser |
| `HeapLoadModel`, `HeapLoadSpec`, `HeapLoadProofs`, `PropHeapLoad` | load with a heap: what is written and what is shared |
| `HeapTreeSpec`, `HeapLoadRefine`, `PropHeapTree` | load with a heap agrees with load of trees |
| `HeapCycleModel`, `HeapCycleSpec`, `HeapCycleProofs`, `PropHeapCycle` | load of documents that contain themselves, cut short at the recursion limit |
| `MisfitSpec`, `MisfitProofs`, `PropMisfit` | dump of values that do not have the annotated type |
| `ShapeSpec`, `ShapeProofs`, `PropShape` | load of documents that do not fit the target type |
| `FrameSpec`, `FrameProofs`, `PropFrame` | handlers of unrelated types have no influence |
| `HistoryModel`, `HistorySpec`, `ForkProofs`, `HistoryProofs`, `PropHistory` | dump and load after a history of API calls |
| `StrictTripSpec`, `StrictTripProofs`, `PropStrictTrip` | round trips by way of strict dumps |
| `InitSpec`, `InitProofs`, `InitBound`, `PropInit` | constructor calls of load |
| `OrderDumpSpec`, `OrderDumpProofs`, `PropOrderDump` | order of entries and attributes in dump |
| `HookModel`, `HookSpec`, `HookProofs`, `PropHook` | hooks of json.loads |
| `FallbackModel`, `FallbackSpec`, `FallbackProofs`, `PropFallback` | default of json.dumps |
| `PositionModel`, `PositionSpec`, `PositionProofs`, `PropPosition` | positions of DecodeErrors |
| `TruncSpec`, `TruncProofs`, `PropTrunc` | texts that are cut off, joined or written line by line |
| `LenientModel`, `LenientSpec`, `LenientProofs`, `PropLenient` | json.loads with strict=False |
| `HashedSpec`, `HashedFacts`, `HashedProofs`, `HashedLoss`, `HashedKeysModel`, `HashedKeysProofs`, `PropHashed` | dicts with arbitrary keys and the '-keys' section, including what loading does to the caller's document |
| `JsonTextModel`, `JsonTextSpec`, `JsonTextProofs`, `JsonTextLaws`, `PropJsonText` | `dumps`/`dumpb`/`loads`/`loadb`: the JSON text written and read (the pure-Python `json` module) |
| `CallModel`, `CallSpec`, `CallProofs`, `PropCall` | the top-level functions as Python calls: positional and keyword arguments, `classes/verbosity.py` |
| `SerializableModel`, `SerializableSpec`, `SerializableProofs`, `SerializableLaws`, `PropSerializable` | `classes/json_serializable.py` over the registries and the calls |
| `ApiModel`, `ApiSpec`, `TransformProofs`, `DecoratorProofs`, `PropApi` | `transform`, `decorators.py` |

`XModel.v` (and `Engine*.v`) have no proofs; `XSpec.v` has the vocabulary the theorems are
stated with, defined without the model's helpers; `PropX.v` has only the theorems (closed by
`exact` or a line or two), examples showing that the hypotheses can be met, and
`Print Assumptions`.

Python semantics fixed at CPython 3.10 on Linux (the newest version the project declares).

## 2. Plan per property

| id | modelled by | proof method |
|---|---|---|
| C01-C04 | `KeyTransformersModel` on ASCII strings | induction on strings / word lists; `_refuted` witnesses outside the canonical class |
| C05-C10 | `DatetimeModel`: calendar fields, offset in microseconds, strftime/strptime as printers and backtracking parsers | digit printing/parsing inversion, finite case analysis on fields lifted to all values by arithmetic |
| C11-C13 | `MultitaskModel`: small-step workers filling a shared array, schedule = list of worker ids | invariant over steps; slice arithmetic |
| C14-C20 | `RegistryModel`: heap of registry containers, fork tree, LRU cache, op histories | invariants and refinement over op lists |
| C21-C27, C45 | `EngineSer.dump` (fuelled, open recursion) | induction on fuel, one lemma per serializer; C23 and C26 as simulations between two dumps |
| C28, C39, C42 | `dump` followed by `load`; `has_type` in `RoundTripSpec` | induction on the typing derivation, existence of one document for all fuels |
| C29-C38, C43, C52 | `EngineDeser.load` | induction on fuel, one lemma per deserializer |
| C40, C41 | `store_and_hash`, `hashed_go`; `HashedKeysModel` for the state of the caller's section | invariant over the loop, dicts up to permutation; counting of entries for the clash |
| C44 | `dump`, `load` with two environments that agree on one fork | congruence of the whole engine (`LoadSame`) |
| C46, C48 | `ApiModel` | composition; induction on the argument list |
| C47 | verbose `dump`, then `load` | induction on the typing derivation with a specification of the document and its hints |
| C49, C51 | `LeafModel` | digit inversion; integer model of binary64 rounding |
| C53-C55 | `SerializableModel`: class objects with their own dump/load attributes over the registry heap | invariant over histories relating attribute lookup to a nearest-class specification |
| C56, C57 | `CallModel`: argument binding | binding characterised for any order of keywords, then congruence |
| C58 | `dump` with `so_kt`, `load` with `lo_kt` | induction on the typing derivation, for all loading transformers at once |
| C59 | load with `tasks` and one schedule per list | fair schedules finish by a weight; simulation of the sequential load by induction on depth |
| C60 | `get_cls_from_str` over what can be imported and announced | relation of what a name denotes; announcements by induction on the fuel of dump and on the tree; then C47 |
| C61 | `class_info`: from class statements to what the engine knows about a class | relational meaning of annotations by induction on types; nearest class of the MRO by induction on it; then C28 |
| C62 | `get_type_hints` and `_get_attributes_and_types` with lru_cache and aliased dicts | heap invariant over all events; congruence of load in the annotations of members |
| C63 | `dump` and `load` by depth of calls | accessibility of parts of values; for load induction on documents and on a relation of types, strings of one character apart; endless cases by induction on the depth |
| C64 | `load` on two documents that differ in the order of keys | a relation of outcomes kept by every deserializer; induction on the depth of calls |
| C65 | the functions of `EngineDeser` once more, with exceptions that carry source and target; without them they are the same functions (`erase_load`) | what is asked for in the course of a call, as an inductive relation; every error is its own or that of a nested call; induction on the depth of calls |
| C66 | `json_text`: json.dumps with indent, separators, sort_keys, ensure_ascii, allow_nan, skipkeys | the grammar of C50: every text is a JSON text of the rearranged value; induction on values; sorting: permutation, sortedness, uniqueness of sorted lists |
| C67 | `deser_primitive`, `deser_string`; int, float, bool and str of documents | relation `casts` with truncation, a grammar of integer literals, nearest doubles; load is sound and complete for it |
| C68 | dump with `tasks` and one schedule per iterable | the outermost iterables are characterised by an inductive relation; simulation of the sequential dump by induction on depth, with the fairness result of C59 |
| C69 | the recursive calls of the engine fail where an arbitrary oracle says so, or at a limit | the disturbed run is related to the undisturbed one, step by step, by induction on the limit: same result, or failure, or a warning |
| C70 | lists, dicts, sets, deques and objects are cells of a heap; the serializers once more, function by function, with the writes that they do | an invariant of all serializers: old cells are unchanged and new cells refer to new cells only; by induction on the recursion limit |
| C71 | the functions of HeapModel.v against those of EngineSer.v, function by function | a simulation: a cell that is read as a tree is dumped to new cells that are read as the document of the tree, with footprints of cells that do not meet; by induction on the recursion limit |
| C72 | a relation between texts and dates, times and offsets that does not mention the parser; the parser (strptime with backtracking) accepts exactly the related texts | soundness by inversion of the parse, completeness by showing that the first parse that succeeds is the one meant |
| C73 | load on a heap of cells, where the deletion from the -keys section is a write | an invariant of heaps (the old cells are there, except for lost entries of sections) kept by every deserializer; a second invariant (the result is made of new cells and cells of the program) for strict loads, both by induction on the depth of calls |
| C74 | a relation between the objects of a heap and the trees they stand for | every function of the heap model simulates the function of the tree model, by induction on the depth of calls; the theorems about sharing and about loading again follow |
| C75 | the calls of load on a heap, where a nested call beyond the limit raises RecursionError | induction on the number of nested calls: a call that returns has no elements without end, so that documents without end are never returned; every call ends |
| C76 | the serializers of the engine, called with the type of an annotation | the serializer of each kind of annotation run on None, and the cast of simple types on every value |
| C77 | the deserializers of the engine | each default deserializer run on documents of the kinds it does not accept; equality of the runs on a collection and on the list of its elements |
| C78 | the engine, for two environments; lookups in the tables of LookupModel before and after a registration | step by step equality of the two runs, along the types that are involved (load) and the parts that are visited (dump) |
| C79 | `HistoryModel` | the registrations visible to a fork (C15-C20) give the environment of the engine; agreement of environments on a fork (`load_same`, `dump_same`), runs with two forks that look up the same (`ForkProofs`), and the frame theorem of C78 |
| C80 | dump with strict=True, load | induction over the typing of the value, with what is known of the type at each part; the load halves as for C28 |
| C81 | load with its events | induction over the depth of recursion; weights of documents, results and events are compared handler by handler |
| C82 | dump on two values side by side | induction over the depth of recursion; each serializer is shown to give results that agree |
| C83 | the scanner of json with hooks | the scanner is proved sound and complete for a grammar of trees; induction over derivations and over the text |
| C84 | json.dumps with a function for foreign objects | nested induction over values and the bound; induction over derivations of `replaced` |
| C85 | json.loads with positions | erasure to the scanner without positions, induction over the fuel, mutual induction over `wrong` |
| C86 | dumps and loads | completeness of the scanner for values that are no numbers (C85), the prefix property of UTF-8 |
| C87 | json.loads with strict=False | simulation in both directions between the scanner of a text and that of the spelled text |
| C50 | `JsonTextModel` printer and parser | induction on documents; the parser against a relational grammar |

A property that the code violates outside a boundary is stated with that boundary; the
positive part is proved for all inputs inside it, the violation by a `_refuted` theorem.

## 3. Trusted base

* Coq's kernel (checked again with `coqchk` by the gate).
* `Print Assumptions` is run for every theorem named in MANIFEST.json, at the end of its
  property file.  Each one answers "Closed under the global context": no axioms at all, not
  even of the standard library.  (The gate also lists axioms of `Coq.ssr.ssrunder`; they are in
  a standard library file that others load, and no theorem depends on them.)
* The reading of the Python code recorded in the model comments.
* The parameters listed under "oracles" below: the theorems hold for all of them, so nothing
  is assumed about them beyond what a theorem's hypotheses say.

## 4. What is modelled

`_key_transformers.py`, `_datetime_impl.py`, `_multitasking.py`, `_lizers_impl.py`,
`_validation.py`, `_fork_impl.py`, `_extra_impl.py`, `_cache.py`, `_dump_impl.py`,
`_load_impl.py`, `_transform_impl.py`, `decorators.py`, `_common_impl.py`, the parts of
`_compatibility_impl.py` that the engine calls, all files of `serializers/` and
`deserializers/`, `classes/json_serializable.py`, `classes/verbosity.py`, and the registrations
at the end of `__init__.py`.

Oracles (explicit arguments of the model, universally quantified in the theorems):
`runtime` in `EngineTypes` (hash, str/int/float of foreign objects, dir, getattr, Decimal,
PurePath, ZoneInfo, the current time, the host's timezone); `python` in `ResolveModel` (builtins,
what importing a module gives, subscription of types); `prog` in
`ClassModel` (class statements, names of modules, strings that are no identifiers); `cinfo` (what a user class is: its
constructor, properties, `__setattr__`); handlers, validators and announced names per fork in
`env`; `textrt` in `JsonTextModel` (float repr and parsing, other encodings); `ld`/`dm` in
`ApiModel`.

Not modelled:

* The messages of exceptions. Of their attributes: source, target and argument of DeserializationErrors
  of load are modelled (C65), source, target, doc, pos, lineno and colno of DecodeErrors (C85), and the first argument where load and dump depend on it; the rest is not.
* In the engine a class comes with its resolved hints (`ClassModel` computes them from class
  statements); a forward reference given as a type is resolved by an oracle.
* Subclasses of builtin types other than enums and named tuples; generic user classes; cyclic
  values in load other than C75 (for dump see C70); bytes inside values; types of `typing` other than those of `ty`; PEP 604 unions.
* Threads mutating the input concurrently; serializers with side effects; which exact depth exceeds the recursion limit (C69 covers every
  depth, with stops at the beginning of nested calls).
* `cls` for `json.loads` (for the other keyword arguments see C83 and C87), and `cls` and `check_circular` for `json.dumps` (`jdkwargs`; for `default` see C84), the limit on digits of integers.

Simplifications common to all models:

* Strings are byte strings (Coq `string`): exact for ASCII.  Unicode case mapping and Unicode
  digits are not modelled; JSON text covers escapes up to U+00FF, wider ones by an oracle.
* Recursion is by fuel in the engine; running out of fuel is a distinct outcome that no
  theorem counts as a result, and theorems hold for every fuel, or every fuel that is large
  enough.
* In the engine, values are immutable, except where a property is about mutation (C41; C70 for dump, with a heap); the
  caches are handled in `RegistryModel` (C19) and `CacheModel` (C62), which show when they do not
  change outcomes.
* The engine runs with one task; `MultitaskModel` has the parallel part, `ParallelModel` puts the two
  together: load with `tasks`, one schedule per list, and dump with `tasks`, one schedule per iterable (ParallelDumpModel.v). Effects of tasks (warnings, getters that count)
  and pickling are not modelled.

## 5. Violations found

Claims a user would expect and that the code breaks.  "Proved" means that a `_refuted` theorem,
or a theorem that states the actual behaviour, is in the property files.

Dates, times and other leaves
1. The minutes of a negative UTC offset that is not a multiple of half an hour are wrong: proved, `C05_quarter_hour_refuted`.
2. A timezone named 'UTC' with a nonzero offset is written as Z: proved, `C05_named_utc_refuted`.
3. Years before 1000 do not load again: proved, `C06_small_year_refuted`.
4. `dump(tz, timezone)` fails: proved, `C51_typed_timezone_refuted`.
5. Timedeltas of 2^33 seconds and more lose microseconds: proved, `C51_timedelta_refuted`.
6. UUID text may contain what `int()` accepts (signs, underscores): proved, `C49_only_hex_digits_refuted`.

Key transformers
7. Single-letter words and digits do not come back, distinct keys can collide: proved, the `C03_*_refuted` theorems.

Parallel lists
8. An empty list with more than one task raises ZeroDivisionError, failing elements become 0 silently: proved, C13.

Registry and forks
9. Validators and announced class names are shared between a fork and its parent: proved, `C18_validator_isolation_refuted`.
10. Announcing a name again has no effect: proved, `C18_reannounce_refuted`.
11. The lookup cache goes stale for direct lookups, and after a failed load: proved, `C19_*_refuted`.
12. suppress_warning on a plain subclass leaks into the parent: proved, `C20_subclass_leak_refuted`.
13. Registrations are case-insensitive in the class name: proved, `C16_case_collision`.
14. The deserializers of timezones and complex numbers ignore the fork: proved, `C44_load_own_fork_suffices_refuted`.

Dumping
15. strip_nulls keeps null fields of named tuples: proved, `C23_named_tuple_refuted`.
16. strip_attr given as a list raises TypeError: proved, `C24_strip_attr_as_list_fails`.
17. A failing attribute silently drops all later attributes; a failing property aborts even the lenient dump: proved, C25.
18. The strict dump of a list or tuple uses the first element's class for all: proved, C45.
19. An object with an attribute `name` in a union is dumped like an enum member; foreign objects can be copied into the document: proved, `C21_foreign_refuted`.
20. Verbose dumps: hints clash for equal attribute paths, objects in lists and dicts lose their classes, WITH_DUMP_TIME alone makes a document that cannot be loaded: proved, the `C47_*_refuted` theorems and `C47_dump_time_only`.  A hint for an attribute also applies to equally named attributes of objects in lists below: `C47_leak_refuted`.
21. Dumping twice changes members of enums that derive from str: proved, `C27_str_enum_refuted`.
22. dumps raises a raw TypeError for what json cannot write; keys of different types collide in the text: proved, `C50_dumps_fails`, `C50_keys_refuted`.

Loading
23. '-meta' without 'classes' raises a raw KeyError, a class whose name contains 'union' or 'optional' a raw TypeError for None: proved, `C29_meta_without_classes`, `C34_odd_name_type_error`.
24. loadb of invalid UTF-8 and loads of non-text raise raw errors: proved, `C50_loadb_invalid`, `C50_always_jsons_error_refuted`.
25. '-meta' in the data chooses the classes of nested values: proved, `C31_*`, `C30_without_plain_input_refuted`.
26. Declared defaults are not validated: proved, `C36_defaults_validated_refuted`.
27. warn_on_fail does not skip values that validators reject: proved, `C37_validation_error_aborts`.
28. Tuples: too few elements are accepted: proved, C43.
29. A value of a later alternative of a union is converted to an earlier one: proved, `C28_union_refuted`.
30. Enums: a value equal to another member's name gives that member: proved, `C39_default_load_of_value_refuted`.
31. A named tuple with None in a field not annotated as optional never loads: proved, `C42_none_not_optional_is_lost`.
32. load(None, object) raises: proved, `C34_none_as_object_refuted`.
33. attr_getters run twice and override the value from JSON: proved, C52.
34. Dicts with hashed keys: equal hashes lose entries silently; strip_nulls makes the document unloadable; keys dumped as text come back as text if another key is hashed; loading empties the caller's section, so the same load fails the second time; untyped loading is rejected: proved, C40, C41.

transform and decorators
35. `dump_args` of transform always raises TypeError: proved, `C46_dump_args_refuted`.
36. Class methods are not rejected by the decorators although the code means to; extra positional arguments raise IndexError: proved, `C48_classmethods_rejected_refuted`, `C48_too_many_arguments`.

JsonSerializable and calls
37. with_dump makes json and dump ignore the serializers of the class (the fork is dropped): proved, `C54_own_serializers_refuted`.
38. The documented `JsonSerializable.with_dump(...)` changes all classes that derive from JsonSerializable, also existing ones: proved, `C54_documented_example_refuted`.
39. str(v), dumps and loads ignore what with_dump and with_load set: proved, `C54_texts_refuted`, `C54_loads_refuted`.
40. set_serializer on a plain subclass changes the default registry that jsons.dump uses: proved, `C55_global_refuted`.
41. loads and loadb fail with any further positional argument: proved, `C57_loads_extra`, `C57_loads_extra_refuted`.

Key transformers in values
42. Loading does not pass the key transformer on to the elements of tuples, dumping does: objects in tuples do not come back: proved, `C58_tuples_refuted`.
43. Dumping does not transform the fields of named tuples, loading does: proved, `C58_named_tuples_refuted`.

Several tasks
44. With more than one task the elements of lists are loaded with the default fork: proved, `C59_forks_refuted`, `C59_lists`.
45. With more than one task warn_on_fail has no effect: proved, `C59_warn_on_fail_refuted`.
46. Sets loaded as lists become zeros: proved, `C59_sets_refuted`.
47. A union of list types takes the first one whatever the elements are: proved, `C59_unions_refuted`.

Names of classes
48. The class of an object in an attribute that is annotated with a base class is not announced by dump: proved, `C60_base_class_refuted`.
49. `__name__` is written, not `__qualname__`: a nested class loads as the module-level class of the same name: proved, `C60_nested_class_refuted`.
50. Of two classes of one name that cannot be imported the one dumped last is taken: proved, `C60_last_dumped_refuted`.
51. Names with nested brackets are a ValueError, relative names a TypeError, and importing a module that a document names may raise anything: proved, `C60_nested_brackets_refuted`, `C60_errors_refuted`.
52. Annotations of the constructor of an abstract class (any metaclass besides `type`) do not count on dump: strict dumps with such a class lose attributes: proved, `C61_abstract_refuted`.
53. One annotation that raises an AttributeError silently costs load all annotations of the constructor: proved, `C61_attribute_error_refuted`.
54. A name in the constructor's annotations that only the module of the class knows is found by load; dump raises a NameError: proved, `C61_dump_fallback_refuted`.
55. `_get_attributes_and_types` writes into the cached dict of `get_type_hints`: after an interrupted dump or a direct call of a serializer, load ignores annotations of class variables: proved, `C62_interrupted_dump_refuted`.
56. A property that gives an instance of its own class, or a class variable with an instance of its own class (the usual singleton), makes dump endless with the default options: proved, `C63_property_refuted`, `C63_class_variable_refuted`.
57. A document whose `-meta` names `typing.Union[int, str]` (or `str`, or `typing.DefaultDict`) is loaded again and again as a whole: proved, `C63_meta_refuted`. With Python's recursion limit, every RecursionError is turned into a DeserializationError and the Union goes on with its next type, so that one line of JSON costs a number of calls exponential in the limit: `C63_recursion_limit_refuted`. `jsons.loads` on untrusted text is open to this.
58. `class Neg(NamedTuple): arg: Union['Neg', str]`: the first character of a string of length 1 is the string, so load tries Neg again for it, until the recursion limit; the result is a tower of Negs as high as the limit: proved, `C63_namedtuple_refuted`, `C63_namedtuple_tower_refuted`.
59. A dict given where a list is expected is loaded as the list of its keys, in their order: proved, `C64_list_refuted`. Two keys that a Dict[int, ...] or a key transformer makes equal: the last one counts, `C64_int_keys_refuted`, `C64_key_transformer_refuted`.
60. With `warn_on_fail`, an element with an entry of the wrong type and another that a validator rejects is dropped, or makes the whole load fail, depending on which of the two comes first: proved, `C64_warn_on_fail_refuted`.
61. With a key transformer the source of an error is a new dict, not a part of the document: proved, `C65_source_is_a_part_refuted`. For a dict with a '-keys' section that is loaded without the types of its keys the target is Mapping, whatever type was given: `C65_target_of_dict_refuted`.
62. An UnfulfilledArgumentError or SignatureMismatchError of an element of a list arrives as a plain DeserializationError, without `argument`: proved, `C65_element_kind_refuted`. A Union (and so Optional) hides the errors of its members: `C65_union`.
63. The errors of json.dumps (TypeError, and ValueError for allow_nan=False) leave dumps as they are, not as SerializationErrors: proved, `C66_fails`, `C66_mixed_keys`; a text written with other separators or another indentation than white space is refused by loads: `C66_any_layout_refuted`.
64. load('false', bool) is True (`C67_bool_of_text_refuted`); load(True, int) is True (`C67_int_of_bool_refuted`); load([1], str) is a text (`C67_text_of_list_refuted`); strict=True forbids no cast (`C67_options`); a NewType of int, float or bool cannot be loaded, not even from an int, float or bool (`C67_newtype_refuted`); a NewType of str gives a datetime for a text that looks like one (`C67_newtype_str_refuted`).
65. With more than one task an empty tuple, set or deque cannot be dumped (ZeroDivisionError, as SerializationError): proved, `C68_empty_refuted`.
66. With more than one task an element of a tuple, set or deque that cannot be dumped is replaced by 0 without any error, together with the rest of its part, even with strict=True: dump(('x', 1), Tuple[int, int], strict=True, tasks=2) gives [0, 1]: proved, `C68_iterables`, `C68_strict_refuted`, `C68_attributes_refuted`.
67. A lenient dump of objects that are nested too deeply for the recursion limit returns a truncated document, with a warning only: proved for every limit, `C69_lenient_refuted`.
68. When dumping an alternative of a Union is stopped by a RecursionError or MemoryError, another alternative is taken without any notice, even with strict=True: proved, `C69_union_refuted`.
69. The same in load: a Union falls back on another alternative, an untyped date stays a string, warn_on_fail drops elements: proved, `C69_load_union_refuted`, `C69_load_string_refuted`, `C69_load_elements_refuted`.
70. A lenient dump of an object that is its own attribute returns a document that is as deep as the recursion limit instead of raising: proved for every limit, `C70_objects_without_end_refuted`.
71. With use_enum_name=False the value of an enum member is returned itself, not a copy: changing the document changes the enum. Proved, `C70_enum_values_refuted`.
72. A dict that a registered serializer returns (for example one that belongs to the object) gets a '-cls' entry and loses it again when class info is asked for; an own entry '-cls' is lost. Proved, `C70_registered_serializers_refuted`.
73. Lists and dicts as values of enum members occur in one document more than once when they are dumped by value: a change to one part of the document changes others. Proved, `C71_enum_values_refuted`.
74. An offset may contain a second sign ('+-05:30' is minus five hours plus thirty minutes), white space, underscores and more than 59 minutes: proved, `C72_offsets_refuted`.
75. A 'Z' at the end of a date or a time of day is accepted and ignored; 't' instead of 'T' is accepted before 'Z' only; a day may have a blank for its first digit: part of `C72_date`, `C72_time`, `C72_datetime` (`says_date`, `says`), `C72_case`.
76. A lenient load returns the parts of the document that have the wanted type as they are (`notes: list` of two objects can be one and the same list, that of the caller): proved, `C73_lenient_result_is_new_refuted`, `C73_lenient_same_object`.
77. load empties the '-keys' section of the caller's document in place; loading the same document a second time fails: proved, `C73_document_unchanged_refuted` (with C41, which says what happens to the keys).
78. A document in which a dict with a '-keys' section occurs twice (the same object) cannot be loaded, although the same document without sharing can: proved, `C74_shared_sections_refuted`.
79. load with warn_on_fail of a list that contains itself gives an empty list (the RecursionError is taken for a failing element): proved, `C75_warn_on_fail_gives_the_empty_list`.
80. load of a dict that contains itself as a class with a union gives objects nested as deep as the recursion limit allows: proved, `C75_typed_documents_without_end_refuted`.
81. None is written as [] under a List annotation, as {} under a class or object and as the text 'None' under UUID or Decimal: proved, `C76_none_is_null_refuted`.
82. An attribute that is None under an annotation such as Set, Dict, Tuple or datetime leaves out that attribute and all later ones, if the dump does not fail: proved, `C76_attributes_lost_refuted`.
83. A strict dump casts silently: a float under int loses its fraction, every non-empty text under bool becomes True: proved, `C76_cast_loses_refuted`.
84. Nothing can be dumped with the annotation Any (Python 3.10), and no tuple with the bare annotation `tuple`: proved, `C76_any_refuted`, `C76_bare_tuple_refuted`.
85. With Union[List[str], str] (in this order) load turns every text into the list of its characters: proved, `C77_union_of_list_and_text_refuted`.
86. An empty list, tuple, set or text is loaded as an object of a class without required parameters: proved, `C77_object_from_dict_refuted`.
87. A deserializer for datetime is also used for every text that is loaded without a target type, as in `load(['hello'])`: proved, `C78_datetime_refuted`.
88. A validator set with one fork is in force for all others: proved at the level of load, `C79_validators_isolated_refuted`.
89. Whether a document that names its class can be loaded depends on earlier dumps, with any fork: proved, `C79_dump_before_load_refuted`.
90. A serializer set with a subclass of JsonSerializable is used by its parent: proved at the level of dump, `C79_subclass_isolated_refuted`.
91. A strict dump does not use the type of the values of a dict: dump({'a': [None, 3]}, Dict[str, List[Optional[int]]], strict=True) raises: proved, `C80_dict_values_refuted`.
92. A strict dump of a list of tuples whose type is not known raises: proved, `C80_tuples_refuted`.
93. A strict dump drops the attributes that the class does not declare, without a warning; load cannot rebuild the object: proved, `C80_undeclared_refuted`.
94. load([{'name': 'x'}, 'y'], Union[Tuple[Person, int], Tuple[Person, str]]) calls the constructor of Person twice: once for each alternative that is tried. A constructor with side effects shows this: proved, `C81_choice_refuted`.
95. With warn_on_fail=True, the objects inside an element that is left out were constructed: proved, `C81_discarded_refuted`.
96. dump(d, cls=List[str]) of a dict gives its keys in the order of insertion, without an error: equal dicts give different documents: proved, `C82_list_refuted`. The same goes for a key transformer that makes two keys equal: proved, `C82_key_transformer_refuted`.
97. Two dict keys with the same hash, such as (-1,) and (-2,) in CPython, share one entry of '-keys' and one entry of the document: one of the two values is lost, and which one depends on the order of insertion: proved, `C82_hash_refuted`.
98. loads(s, jdkwargs={'parse_float': Decimal}) and loads(s, jdkwargs={'object_pairs_hook': OrderedDict}) raise DeserializationError for every document with a float or an object (for OrderedDict: for every class as cls): load only takes values whose type is exactly str, int, float, bool, list, tuple, set, dict or None: proved, `C83_decimal_refuted`, `C83_ordered_refuted`, `C83_other_types`.
99. An exception of a hook leaves loads as it is and is no JsonsError; a JSONDecodeError raised by a hook is reported as if the text itself were no valid JSON: proved, `C83_exceptions_refuted`.
100. dumps(obj, jdkwargs={'default': fn}): fn is not asked about keys of dicts, so a registered serializer that returns a dict with a tuple as key makes dumps fail whatever fn does: proved, `C84_keys_refuted`.
101. Exceptions of fn leave dumps as they are, and fn is only ever needed for what registered serializers and values of enum members (use_enum_name=False) leave in the dump: proved, `C84_exceptions_refuted`, `C84_default_serializers`.
102. A DecodeError about a string without end has the position of its opening quote, also if the text was only cut off: proved, `C85_longest_refuted`.
103. The DecodeError of loadb has the decoded text as source, not the bytes (loads of bytes has the bytes), and its pos is an index of characters, not of bytes: proved, `C85_bytes_refuted`, `C85_loadb`.
104. A dumped number that is cut off, or joined with another, is loaded as a different number without an error: proved, `C86_numbers_refuted`, and for integers which number, `C86_cut_integer`, `C86_joined_integers`.
105. With indent a file of dumped texts cannot be read line by line: proved, `C86_indented_refuted`.

## 6. Testing the theorems

`seeded/LOG.jsonl` has one line per wrong program: the definition edited in a scratch copy, the
edit, the claim it breaks, the theorems that failed and those that had to be tightened.

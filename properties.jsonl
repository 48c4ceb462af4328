{"id": "C01", "title": "Key transformers produce the advertised casing and are idempotent", "statement": "Whenever they return, camelcase yields a key without '_' or '-' and without a leading capital, pascalcase one without '_' or '-' and without a leading small letter, snakecase one without capitals or '-', lispcase one without capitals or '_'; applying any of them a second time returns the same key.", "quantifier": "every ASCII key string", "why_tests_cant": "unit tests sample a handful of keys; the claim ranges over all strings including digits, doubled separators and mixed casing", "anchors": ["jsons/_key_transformers.py:camelcase", "jsons/_key_transformers.py:snakecase", "jsons/_key_transformers.py:pascalcase", "jsons/_key_transformers.py:lispcase"]}
{"id": "C02", "title": "Key transformers fail exactly on degenerate keys", "statement": "camelcase and pascalcase raise exactly on keys made only of '_' and '-' (the empty key included); snakecase and lispcase raise exactly on the empty key; on every other key all four return a non-empty key.", "quantifier": "every ASCII key string", "why_tests_cant": "the set of failing keys is infinite ('_', '__', '-_-', ...)", "anchors": ["jsons/_key_transformers.py:camelcase", "jsons/_key_transformers.py:snakecase", "jsons/_key_transformers.py:pascalcase", "jsons/_key_transformers.py:lispcase"]}
{"id": "C03", "title": "Re-casing a canonical snake_case name and coming back restores it", "statement": "For every canonical snake_case name (non-empty words of small letters joined by single underscores, inner words of two or more letters) snakecase(camelcase(n)) = snakecase(pascalcase(n)) = snakecase(lispcase(n)) = n, so dumping with a casing transformer and loading with snakecase restores attribute names. Outside that class it is false: one-letter inner words, leading underscores and word-final digits are lost, and two different attributes may collapse onto one key.", "quantifier": "every list of words", "why_tests_cant": "the identifier space is infinite and the failing names are rare shapes (a_b_c, x_1)", "anchors": ["jsons/_key_transformers.py:camelcase", "jsons/_key_transformers.py:snakecase", "jsons/_key_transformers.py:pascalcase", "jsons/_key_transformers.py:lispcase"]}
{"id": "C04", "title": "The casings agree with each other", "statement": "snakecase and lispcase differ only in the separator and determine each other: snakecase(lispcase(s)) = snakecase(s) and lispcase(snakecase(s)) = lispcase(s); pascalcase and camelcase differ only in the case of the first character and determine each other.", "quantifier": "every ASCII key string", "why_tests_cant": "law over all strings", "anchors": ["jsons/_key_transformers.py"]}
{"id": "C05", "title": "Timezone-aware datetimes survive dump and load exactly", "statement": "For every valid datetime with a four-digit year and a fixed offset, loading its dump gives back the same calendar fields, the same microseconds and the same offset, provided the offset is a whole number of minutes and is either non-negative or a multiple of half an hour; for every other offset the loaded value has a different offset.", "quantifier": "every calendar date, time of day, microsecond and every offset in (-24h, 24h)", "why_tests_cant": "about 10^21 values; the broken offsets (e.g. -03:15, seconds in the offset) are not in any test", "anchors": ["jsons/_datetime_impl.py:to_str", "jsons/_datetime_impl.py:_datetime_offset_str", "jsons/_datetime_impl.py:_timedelta_offset_str", "jsons/_datetime_impl.py:get_datetime_inst", "jsons/_datetime_impl.py:_datetime_offset_inst", "jsons/serializers/default_datetime.py", "jsons/deserializers/default_datetime.py"]}
{"id": "C06", "title": "UTC datetimes are written with Z and read back as UTC", "statement": "A datetime in timezone.utc dumps to a string ending in 'Z' with exactly the RFC3339 layout and loads back to the identical UTC datetime; with strip_microseconds the result is the same instant with the microseconds cut to zero.", "quantifier": "every valid datetime, both strip_microseconds settings", "why_tests_cant": "range of values", "anchors": ["jsons/_datetime_impl.py:to_str", "jsons/_datetime_impl.py:_datetime_utc_inst", "jsons/serializers/default_datetime.py", "jsons/deserializers/default_datetime.py"]}
{"id": "C07", "title": "Naive datetimes are dumped as +00:00 whatever the local timezone is", "statement": "A datetime without tzinfo dumps with the suffix '+00:00' and a warning, and loads back as the same wall clock in UTC; hence the instant it denotes locally is preserved exactly when the local offset is zero.", "quantifier": "every naive datetime and every local timezone of the host", "why_tests_cant": "a test runs in one local timezone only", "anchors": ["jsons/_datetime_impl.py:_datetime_offset_str"]}
{"id": "C08", "title": "Excess fraction digits are truncated, never rounded or rejected", "statement": "A datetime string with n >= 1 fraction digits loads to the datetime whose microseconds are the first six digits (right-padded with zeros), for every n.", "quantifier": "every fraction length and digit sequence", "why_tests_cant": "unbounded number of digits", "anchors": ["jsons/deserializers/default_datetime.py"]}
{"id": "C09", "title": "Dates always round-trip, times round-trip exactly when they carry no microseconds", "statement": "load(dump(d), date) = d for every date with a four-digit year; load(dump(t), time) = t for every time without microseconds, while for every time with microseconds it raises.", "quantifier": "every date and every time of day", "why_tests_cant": "value range", "anchors": ["jsons/serializers/default_date.py", "jsons/serializers/default_time.py", "jsons/deserializers/default_date.py", "jsons/deserializers/default_time.py", "jsons/_datetime_impl.py:to_str"]}
{"id": "C10", "title": "Loading arbitrary text as a datetime yields a valid datetime or a clean failure", "statement": "For every string, loading it as a datetime either produces a datetime whose fields form a real calendar date, a real time of day and an offset strictly inside (-24h, 24h), or raises; it never produces an out-of-range value.", "quantifier": "every ASCII string", "why_tests_cant": "all strings", "anchors": ["jsons/deserializers/default_datetime.py", "jsons/_datetime_impl.py:get_datetime_inst", "jsons/_datetime_impl.py:_datetime_offset_inst", "jsons/_datetime_impl.py:_datetime_utc_inst"]}
{"id": "C11", "title": "Parallel list processing gives the sequential result under every schedule", "statement": "If no element fails, processing a non-empty list with any number of tasks yields exactly the list of per-element results in input order, for every interleaving of the tasks.", "quantifier": "every list, every number of tasks, every scheduling of the workers", "why_tests_cant": "schedules are exponential in number and not controllable from a test", "anchors": ["jsons/_multitasking.py:multi_task", "jsons/_multitasking.py:_start_tasks", "jsons/_multitasking.py:_fill"]}
{"id": "C12", "title": "The work is split into disjoint slices covering the list", "statement": "The index ranges given to the tasks are pairwise disjoint, contiguous, non-empty, cover exactly the indices of the list, and their number is min(tasks, length); so every element is processed exactly once.", "quantifier": "every list length and task count >= 1", "why_tests_cant": "arithmetic over all pairs of sizes", "anchors": ["jsons/_multitasking.py:_start_tasks"]}
{"id": "C13", "title": "A failing element is lost silently in parallel mode and an empty list crashes it", "statement": "When an element fails, its slot and the later slots of the same slice keep the filler 0 and no error reaches the caller, under every schedule; the other slices are unaffected. For an empty list with more than one task a ZeroDivisionError is raised.", "quantifier": "every list, task count and schedule", "why_tests_cant": "schedules; which slot is lost depends on the split", "anchors": ["jsons/_multitasking.py:multi_task", "jsons/_multitasking.py:_get_list_to_fill", "jsons/_multitasking.py:_start_tasks", "jsons/_multitasking.py:_fill", "jsons/deserializers/default_list.py"]}
{"id": "C14", "title": "The registered handler for exactly a class wins, and the last registration wins", "statement": "After any history of registrations, looking up the (de)serializer of a class registered under its own name returns the function of the most recent registration for that name in that fork.", "quantifier": "every history of set_serializer/set_deserializer calls, every class", "why_tests_cant": "histories are unbounded", "anchors": ["jsons/_lizers_impl.py:set_serializer", "jsons/_lizers_impl.py:set_deserializer", "jsons/_lizers_impl.py:get_serializer", "jsons/_lizers_impl.py:_get_lizer"]}
{"id": "C15", "title": "Unregistered classes fall back to the first matching ancestor in registration order", "statement": "If a class is not itself registered, the lookup returns the current function of the first ancestor in the priority list, where high-priority registrations are newest first before all low-priority ones oldest first; if no registered class is an ancestor the lookup finds nothing.", "quantifier": "every registration history and subclass relation", "why_tests_cant": "histories and hierarchies are unbounded", "anchors": ["jsons/_lizers_impl.py:_get_lizer_by_parents", "jsons/_lizers_impl.py:_get_parents", "jsons/_lizers_impl.py:set_serializer"]}
{"id": "C16", "title": "Registrations are identified by case-insensitive qualified name", "statement": "Registering for one class never changes the exact-match lookup of a class whose lower-cased qualified name differs; two distinct classes whose names differ only in case overwrite each other.", "quantifier": "every pair of classes and history", "why_tests_cant": "name space is infinite", "anchors": ["jsons/_lizers_impl.py:set_serializer", "jsons/_lizers_impl.py:_get_lizer", "jsons/_common_impl.py:get_class_name"]}
{"id": "C17", "title": "Forks are isolated for serializers and deserializers in both directions", "statement": "After a fork is created, no sequence of set_serializer/set_deserializer/suppress calls on either side (or on any other fork) changes what the other side looks up, and a fresh fork looks up exactly what its parent does.", "quantifier": "every tree of forks and every operation history", "why_tests_cant": "histories and fork trees are unbounded", "anchors": ["jsons/_fork_impl.py:fork", "jsons/_lizers_impl.py", "jsons/_extra_impl.py"]}
{"id": "C18", "title": "Validators and announced classes are shared between a fork and its parent", "statement": "set_validator or announce_class on a fork is visible in its parent and in every sibling, at every point of every history: the isolation of C17 does not extend to them.", "quantifier": "every history", "why_tests_cant": "histories are unbounded", "anchors": ["jsons/_fork_impl.py:fork", "jsons/_validation.py:set_validator", "jsons/_extra_impl.py:announce_class", "jsons/_common_impl.py:StateHolder"]}
{"id": "C19", "title": "The lookup cache never changes the outcome of dump and load", "statement": "In every history made of registrations, forks, dumps and loads (no direct get_serializer/get_deserializer calls), every serializer and deserializer lookup done inside a dump or load returns what an uncached lookup in the current registry would return, because each completed outermost call leaves the cache empty. It is false when get_serializer was called directly before a registration, when a load fails for want of a deserializer, and for validators after a load that skipped deserialization.", "quantifier": "every operation history, cache size and eviction pattern", "why_tests_cant": "stale-cache bugs depend on the history", "anchors": ["jsons/_cache.py", "jsons/_dump_impl.py:_do_dump", "jsons/_load_impl.py:_do_load", "jsons/_load_impl.py:load", "jsons/_lizers_impl.py:get_serializer", "jsons/_validation.py:get_validator"]}
{"id": "C20", "title": "Warnings can be suppressed per fork and globally", "statement": "A warning with a code is emitted by a fork exactly when neither suppress_warnings(True) nor suppress_warning(code) is in force for it, and suppression on one fork never affects another fork created earlier or later from an unsuppressed state.", "quantifier": "every history of suppress calls and forks", "why_tests_cant": "histories are unbounded", "anchors": ["jsons/_extra_impl.py", "jsons/_common_impl.py:StateHolder", "jsons/_fork_impl.py"]}
{"id": "C21", "title": "dump only produces JSON", "statement": "With the default serializers and names for enum members, whatever dump returns is built from None, booleans, numbers, strings, lists and dicts with JSON-able keys only, at every depth, provided that whatever is dumped as an enum, a complex or a ZoneInfo is one. A foreign object dumped as an enum has its 'name' attribute copied into the result unseen, so there a non-JSON result is possible.", "quantifier": "every value in the modelled universe, every class table, every option setting, every nesting depth", "why_tests_cant": "unbounded nesting and class shapes", "anchors": ["jsons/_dump_impl.py:dump", "jsons/serializers/"]}
{"id": "C22", "title": "dump fails only with SerializationError", "statement": "Every failure of dump reaches the caller as a SerializationError, whatever the value, the target class, the options and the registered serializers.", "quantifier": "every value, class table, registry and option setting", "why_tests_cant": "unbounded", "anchors": ["jsons/_dump_impl.py:_do_dump"]}
{"id": "C23", "title": "strip_nulls removes every null attribute and dict entry", "statement": "With strip_nulls no dict in the dump holds a None value at any depth, provided no named tuple is reached (their fields keep their nulls) and enum values that are copied hold none; lists keep their None elements, and nothing but null entries is removed.", "quantifier": "every value and depth", "why_tests_cant": "unbounded nesting", "anchors": ["jsons/serializers/default_object.py:_add_dumped_elem", "jsons/serializers/default_dict.py", "jsons/serializers/default_tuple.py:default_namedtuple_serializer"]}
{"id": "C24", "title": "Attribute filters remove exactly what they say", "statement": "An object's dump contains an attribute exactly when it is a public-API-visible one: not dunder, not stripped by strip_privates / strip_properties / strip_class_variables / strip_attr, not a method, and not one of the names reserved by JsonSerializable (dump, load, fork, json, ...), which are dropped from every class.", "quantifier": "every class, instance and option combination", "why_tests_cant": "combinatorial in options, unbounded in attribute sets", "anchors": ["jsons/serializers/default_object.py:_filter_attributes", "jsons/serializers/default_object.py:_get_attributes_from_object"]}
{"id": "C25", "title": "A failing attribute truncates the dump in lenient mode and aborts it in strict mode", "statement": "Without strict, if an attribute's serializer fails the dump contains exactly the attributes that precede it in alphabetical order (all later ones are lost) and a warning is issued; with strict the whole dump fails. An attribute that cannot be read at all (a raising property) aborts the dump in both modes.", "quantifier": "every class, every position of the failing attribute", "why_tests_cant": "positions and attribute sets are unbounded", "anchors": ["jsons/serializers/default_object.py:_do_serialize"]}
{"id": "C26", "title": "A key transformer is applied to every dict key of objects and dicts", "statement": "Dumping with a key transformer equals transforming every object and dict key of the plain dump at every depth (later entries winning on clashes), except inside named tuples, timezones and complex numbers whose keys are left alone.", "quantifier": "every value, depth and transformer", "why_tests_cant": "unbounded nesting, arbitrary functions", "anchors": ["jsons/serializers/default_object.py:_add_dumped_elem", "jsons/serializers/default_dict.py", "jsons/serializers/default_tuple.py"]}
{"id": "C27", "title": "dump is the identity on plain JSON data", "statement": "Dumping a value that is already JSON (any nesting of None, bool, int, float, str, list, str-keyed dict) returns the same value; so dumping twice equals dumping once.", "quantifier": "every JSON document", "why_tests_cant": "unbounded documents", "anchors": ["jsons/_dump_impl.py:dump", "jsons/serializers/default_list.py", "jsons/serializers/default_dict.py", "jsons/serializers/default_primitive.py"]}
{"id": "C28", "title": "Typed round trip", "statement": "For every value that is well typed for a type built from the supported constructors (None, bool, int, float, str, List, Tuple, Tuple[T, ...], Dict[str, T], Optional, enums, datetimes, dates, times, UUIDs and record classes, nested arbitrarily), loading its dump with that type returns an equal value, in strict and non-strict loading.", "quantifier": "every type of the grammar, every well-typed value, every class table of record classes", "why_tests_cant": "unbounded nesting of types and values", "anchors": ["jsons/_dump_impl.py:dump", "jsons/_load_impl.py:load", "jsons/serializers/", "jsons/deserializers/"]}
{"id": "C29", "title": "load fails only with JsonsError, apart from malformed meta data and union-like class names", "statement": "If the input carries no '-meta' key and the target's name does not contain 'union' or 'optional' without being a Union, every failure of load is a JsonsError; the two exceptions do let KeyError/TypeError escape.", "quantifier": "every input, target type, class table, registry", "why_tests_cant": "unbounded", "anchors": ["jsons/_load_impl.py:_do_load", "jsons/_common_impl.py:get_cls_and_meta", "jsons/_common_impl.py:can_match_with_none"]}
{"id": "C30", "title": "Without -meta in the data, a successful load returns an instance of the requested type", "statement": "If load(j, T) returns v, no dict in j has a '-meta' or '-keys' key and no attr_getters or meta_hints are passed, then v conforms to T: primitives have the primitive type (a bool counts as an int), List[T] gives a list of conforming elements, Tuple[T1..Tn] a tuple of at most n elements conforming position by position, Dict[K, V] a dict of conforming keys and values, Union a value conforming to one alternative, an enum one of its members, a class an instance of that class whose attributes are conforming values, the declared default, or None where None is allowed, and so on.", "quantifier": "every input, every type of the grammar", "why_tests_cant": "unbounded", "anchors": ["jsons/_load_impl.py:load", "jsons/deserializers/"]}
{"id": "C31", "title": "-meta in the data overrides type hints of nested values", "statement": "A '-meta' section can make load instantiate a class other than the hinted one for list elements and attributes, but never for the outermost object when an explicit class was passed.", "quantifier": "every input with meta data", "why_tests_cant": "adversarial inputs are unbounded", "anchors": ["jsons/_common_impl.py:determine_precedence", "jsons/_common_impl.py:get_cls_and_meta", "jsons/deserializers/default_object.py:_get_value_from_obj", "jsons/deserializers/default_list.py"]}
{"id": "C32", "title": "Strict loading rejects unknown keys before constructing anything", "statement": "With strict=True, loading a dict with a key that is not a constructor parameter (and not '-meta') raises SignatureMismatchError naming the first such key, without calling the constructor; with strict=False every extra key becomes an attribute.", "quantifier": "every dict, class and key set", "why_tests_cant": "unbounded", "anchors": ["jsons/deserializers/default_object.py:_get_remaining_args", "jsons/deserializers/default_object.py:default_object_deserializer", "jsons/deserializers/default_object.py:_set_remaining_attrs"]}
{"id": "C33", "title": "Constructor arguments are resolved in a fixed order", "statement": "Each parameter takes its value from the input if present, else from its attr_getter, else its default, else is skipped (var-args), else None if its type admits None, else the load fails with UnfulfilledArgumentError naming the first unfulfilled parameter.", "quantifier": "every signature, input and set of getters", "why_tests_cant": "unbounded", "anchors": ["jsons/deserializers/default_object.py:_get_value_for_attr", "jsons/deserializers/default_object.py:_get_constructor_args"]}
{"id": "C34", "title": "None is accepted exactly by targets that admit None", "statement": "load(None, T) returns None when T is absent, Any, NoneType or a Union/Optional that lists None (and no oddly named class), and otherwise raises DeserializationError (also for T = object, although the test for None lets that through); for a class whose name merely contains 'union' or 'optional' a raw TypeError escapes.", "quantifier": "every target type", "why_tests_cant": "type grammar is unbounded", "anchors": ["jsons/_load_impl.py:_check_for_none", "jsons/_common_impl.py:can_match_with_none"]}
{"id": "C35", "title": "Unions take the first alternative that works", "statement": "Loading or dumping with a Union returns the result of the first alternative, in declaration order, that does not fail with a JsonsError; if all fail, the operation fails. Consequently a value may be converted by an earlier alternative (5 dumped as Union[str, int] becomes '5').", "quantifier": "every union, value and alternative list", "why_tests_cant": "unbounded", "anchors": ["jsons/deserializers/default_union.py", "jsons/serializers/default_union.py"]}
{"id": "C36", "title": "Validators run on every loaded value", "statement": "If load returns v for a class with a registered validator then the validator accepted v; if the validator rejects or raises, load fails with ValidationError. This holds for the outermost value and for every nested one that is loaded; declared defaults are not validated.", "quantifier": "every input, validator and nesting", "why_tests_cant": "unbounded", "anchors": ["jsons/_validation.py:validate", "jsons/_load_impl.py:load", "jsons/_load_impl.py:_do_load"]}
{"id": "C37", "title": "warn_on_fail drops exactly the failing list elements", "statement": "With warn_on_fail, loading a list returns the successfully loaded elements in order and issues one warning per element that failed with a DeserializationError; without it the load fails, reporting the index of the first failing element. A ValidationError aborts in both modes.", "quantifier": "every list and failure pattern", "why_tests_cant": "2^n failure patterns", "anchors": ["jsons/deserializers/default_list.py:_do_load"]}
{"id": "C38", "title": "Strings stay strings unless the type was inferred", "statement": "A string loaded with explicit target str is returned unchanged; a string loaded without a target becomes a datetime exactly when it parses as one, and is unchanged otherwise.", "quantifier": "every string", "why_tests_cant": "all strings", "anchors": ["jsons/deserializers/default_string.py", "jsons/_load_impl.py:load"]}
{"id": "C39", "title": "Enum members round-trip by name, and by value when asked on both sides", "statement": "load(dump(m), E) is m for every member; with use_enum_name=False on both sides it is m whenever values are distinct; dumping by value and loading with the default can return a different member exactly when the value equals another member's name.", "quantifier": "every enum", "why_tests_cant": "unbounded enums", "anchors": ["jsons/serializers/default_enum.py", "jsons/deserializers/default_enum.py"]}
{"id": "C40", "title": "Dict keys that are not JSON keys survive via the hash section unless hashes clash", "statement": "A dict whose non-JSON keys have pairwise distinct hashes (also distinct from its other keys) dumps to a dict from which Dict[K, V] loading recovers all entries; two keys with equal hash lose one entry silently.", "quantifier": "every dict and every hash function", "why_tests_cant": "hash values are arbitrary", "anchors": ["jsons/serializers/default_dict.py:_store_and_hash", "jsons/deserializers/default_dict.py:_load_hashed_keys"]}
{"id": "C41", "title": "Loading hashed keys mutates the caller's input", "statement": "Loading a dict with a '-keys' section empties that section inside the caller's object, so a second load of the same object does not see the keys; loading a dict without the section leaves it untouched.", "quantifier": "every dict with hashed keys", "why_tests_cant": "aliasing is invisible to value-comparing tests", "anchors": ["jsons/deserializers/default_dict.py:_load_hashed_keys"]}
{"id": "C42", "title": "Named tuples load field by field, from lists or dicts", "statement": "A named tuple loaded from a list takes fields by position, from a dict by name, with trailing missing fields from defaults; a None field is accepted only when hinted Optional; so a named tuple round-trips exactly when each None field is so hinted.", "quantifier": "every named tuple class and value", "why_tests_cant": "unbounded", "anchors": ["jsons/deserializers/default_tuple.py:default_namedtuple_deserializer", "jsons/serializers/default_tuple.py:default_namedtuple_serializer"]}
{"id": "C43", "title": "Tuples: too many elements are rejected, too few are accepted", "statement": "Loading n values as Tuple[T1..Tm] fails if n > m, and otherwise returns the n-tuple of the values loaded with the first n types, even when n < m.", "quantifier": "every length and type list", "why_tests_cant": "unbounded", "anchors": ["jsons/deserializers/default_tuple.py:default_tuple_deserializer"]}
{"id": "C44", "title": "Handlers of one fork never consult another fork", "statement": "The result of dump with a fork depends only on that fork's registry; the same holds for load except below timezone and complex values and in parallel mode, where the default registry is consulted.", "quantifier": "every pair of registries and every value", "why_tests_cant": "non-interference over all registries", "anchors": ["jsons/_dump_impl.py", "jsons/serializers/", "jsons/_load_impl.py", "jsons/deserializers/default_timezone.py", "jsons/deserializers/default_complex.py", "jsons/deserializers/default_list.py"]}
{"id": "C45", "title": "Strict dump of a list or tuple treats all elements as the class of the first", "statement": "With strict and no element type, every element of a list is serialized with the serializer and class of the first element, so later elements of other types are converted or rejected ([1, 2.5] becomes [1, 2]); lists of primitives of one class are unaffected. Without strict every element is dumped with its own class, and with an element type every element is dumped with that type. For tuples alike, but without strict their element types are ignored, with strict their number must be that of the elements.", "quantifier": "every list and tuple", "why_tests_cant": "unbounded", "anchors": ["jsons/serializers/default_list.py", "jsons/serializers/default_tuple.py", "jsons/serializers/default_iterable.py"]}
{"id": "C46", "title": "transform is dump followed by load", "statement": "transform(obj, cls, mapper) returns exactly load(mapper(dump(obj)), cls), propagating either failure.", "quantifier": "every object, class and mapper", "why_tests_cant": "unbounded", "anchors": ["jsons/_transform_impl.py:transform"]}
{"id": "C47", "title": "Verbose dumps reload to the same classes when attribute names do not clash", "statement": "A dump with WITH_CLASS_INFO is the plain dump followed by a '-meta' section that lists, by path, the class of the root and of every nested object, and nothing else. Loading it without a class gives back the same tree of the same classes, even without any annotations, if no attribute that holds an object has the name of an attribute of another object (more exactly: if no stale hint takes effect); if names clash, or objects are in lists or dicts, nested classes may be lost or confused. A verbose dump with WITH_DUMP_TIME only cannot be loaded at all.", "quantifier": "every object tree", "why_tests_cant": "unbounded trees", "anchors": ["jsons/serializers/default_object.py:_get_dict_with_meta", "jsons/serializers/default_object.py:_fill_collection_of_types", "jsons/deserializers/default_object.py:_get_value_from_obj", "jsons/_common_impl.py:get_cls_and_meta"]}
{"id": "C48", "title": "Decorators map exactly the positional arguments and the return value", "statement": "A function decorated with loaded/dumped receives every positional argument mapped with its annotation (self/cls excepted), keyword arguments unmapped, and returns the mapped result; a failing mapping prevents the call.", "quantifier": "every function signature and argument list", "why_tests_cant": "unbounded", "anchors": ["jsons/decorators.py:_map_args", "jsons/decorators.py:_run_decorated", "jsons/decorators.py:_map_returnvalue"]}
{"id": "C49", "title": "UUIDs round-trip and only well-formed text loads", "statement": "load(dump(u), UUID) = u for every 128-bit UUID, whose dump is its canonical 36 characters. A string of hex digits and hyphens loads iff it has 32 hex digits. Every string that loads as a UUID consists, apart from hyphens, braces and 'urn:'/'uuid:', of 32 characters that int(s, 16) tolerates (hex digits, but also '0x', '_', a sign and whitespace); any other string raises a DeserializationError.", "quantifier": "all 2^128 UUIDs and all strings", "why_tests_cant": "range", "anchors": ["jsons/serializers/default_uuid.py", "jsons/deserializers/default_uuid.py"]}
{"id": "C50", "title": "JSON text round trip", "statement": "loads(dumps(x)) equals load(dump(x)) after turning keys into strings: parsing the text that dumps writes gives back the dumped document; malformed text raises DecodeError; loadb lets UnicodeDecodeError escape.", "quantifier": "every JSON document and every string", "why_tests_cant": "unbounded documents", "anchors": ["jsons/_dump_impl.py:dumps", "jsons/_dump_impl.py:dumpb", "jsons/_load_impl.py:loads", "jsons/_load_impl.py:loadb"]}
{"id": "C51", "title": "timedelta and timezone round-trip within float precision", "statement": "load(dump(td), timedelta) = td for every timedelta shorter than 2^33 seconds (272 years); from there on microseconds can be lost. load(dump(tz), timezone) has the same offset and name as tz for every fixed-offset timezone, but dump(tz, timezone) always fails.", "quantifier": "every timedelta and offset", "why_tests_cant": "range; float rounding", "anchors": ["jsons/serializers/default_timedelta.py", "jsons/deserializers/default_timedelta.py", "jsons/serializers/default_timezone.py", "jsons/deserializers/default_timezone.py"]}
{"id": "C52", "title": "attr_getters determine the final attribute values", "statement": "After a successful load with attr_getters, every attribute named in attr_getters holds its getter's value, even if the input contains that key; and getters of constructor parameters are called twice.", "quantifier": "every input and getter set", "why_tests_cant": "unbounded", "anchors": ["jsons/deserializers/default_object.py:_set_remaining_attrs", "jsons/deserializers/default_object.py:_get_value_for_attr"]}
{"id": "C53", "title": "The methods of JsonSerializable are the jsons functions with the class as fork", "statement": "For every class that derives from JsonSerializable on which no dump or load arguments are set, v.json and v.dump(**kw) are dump(v, fork_inst=type(v), **kw), from_json and load are load(j, cls, fork_inst=cls, **kw), str(v), dumps, dumpb, loads and loadb are the functions of the same name; well-typed instances round-trip. A caller cannot choose another fork: fork_inst is a TypeError.", "quantifier": "every class hierarchy and history of calls, every instance, document and set of keyword arguments", "why_tests_cant": "unbounded histories and hierarchies", "anchors": ["jsons/classes/json_serializable.py"]}
{"id": "C54", "title": "with_dump and with_load set arguments for exactly the classes below", "statement": "After p.with_dump(**kw) the method dump of p and of every class below it that has no nearer setting is dump(v, **kw) with kw winning over the arguments of the call; all other classes, and the method load, keep their settings. With fork=True no existing class changes and the returned new class has the arguments. New subclasses start with the settings of their base. An argument named cls is refused without effect. (str, dumps and loads ignore the settings; a dump with settings ignores the serializers of the class; without fork=True existing classes change.)", "quantifier": "every history of class definitions and calls", "why_tests_cant": "unbounded histories", "anchors": ["jsons/classes/json_serializable.py:with_dump", "jsons/classes/json_serializable.py:with_load"]}
{"id": "C55", "title": "set_serializer and set_deserializer of a class register in its fork", "statement": "p.set_serializer(g, cls) makes g the serializer of cls for p and all classes of the same fork, and v.json calls it; with fork=True only the returned new class sees it and no lookup of an existing class changes. with_dump and with_load register nothing. (For a plain subclass of JsonSerializable the fork is the default one, so jsons.dump of any object is affected.)", "quantifier": "every history of calls", "why_tests_cant": "unbounded histories", "anchors": ["jsons/classes/json_serializable.py:set_serializer", "jsons/classes/json_serializable.py:set_deserializer"]}
{"id": "C56", "title": "verbose: only what the value asks for counts", "statement": "A Verbosity asks for its flags, any other true value for everything, any other value for nothing; dumps with values that ask for the same are equal, and a value that asks for nothing is the same as leaving verbose out.", "quantifier": "every object, every value of verbose and all other arguments", "why_tests_cant": "all values", "anchors": ["jsons/classes/verbosity.py", "jsons/serializers/default_object.py"]}
{"id": "C57", "title": "Positional and keyword arguments of the top-level functions", "statement": "The order of keyword arguments never matters; cls can be given by position or by name to dump and load, and to dumps as its third argument; surplus positional arguments are a TypeError for dump and load; loads and loadb accept them in their signature but no call that uses them succeeds.", "quantifier": "every argument list", "why_tests_cant": "all argument lists", "anchors": ["jsons/_dump_impl.py", "jsons/_load_impl.py"]}
{"id": "C58", "title": "Key transformers round-trip with their inverse", "statement": "A well-typed value dumped with one key transformer and loaded with another one comes back whenever the second undoes the first on every attribute name and key text in it (and leaves the field names of named tuples alone, as one of the library's transformers always does if it undoes them); snakecase undoes camelcase and pascalcase on snake_case names whose inner words have two letters or more, and lispcase on all snake_case names. Inside of tuples nothing is undone: objects there do not load again.", "quantifier": "every value, type, pair of transformers and set of classes", "why_tests_cant": "unbounded values and arbitrary functions", "anchors": ["jsons/serializers/default_dict.py", "jsons/serializers/default_object.py", "jsons/deserializers/default_dict.py", "jsons/deserializers/default_object.py", "jsons/deserializers/default_tuple.py", "jsons/_key_transformers.py"]}
{"id": "C59", "title": "Loading with several tasks gives what one task gives", "statement": "load(j, t, tasks=k) equals load(j, t) for every document that loads with one task, every number of tasks and every fair interleaving of the tasks, provided that the document has no empty lists, lists are given where lists are expected, unions are optionals and the default fork is used. Outside of these conditions: empty lists fail, sets become lists of zeros, failing elements become zeros together with the rest of their part (also with warn_on_fail and inside of unions), and the deserializers of the given fork are not used for elements.", "quantifier": "every document, type, number of tasks and schedule", "why_tests_cant": "schedules; unbounded nesting", "anchors": ["jsons/deserializers/default_list.py", "jsons/_multitasking.py", "jsons/_load_impl.py"]}
{"id": "C60", "title": "Class names in documents resolve to the class they were written for", "statement": "A name in a document stands for the builtin of that name, else for what can be imported under it, else for what was announced, else it is an UnknownClassError; 'A[B, C]' stands for A of B and C. Dumping announces the classes it meets. Hence a verbose dump of a tree of objects loads again in another process if its classes can be imported, and in the same process also if they cannot (classes within functions), provided that no other class has the name and that attributes are not annotated with base classes.", "quantifier": "every name, every set of importable modules, every history of announcements, every object tree", "why_tests_cant": "unbounded names, trees and histories", "anchors": ["jsons/_common_impl.py:get_cls_from_str", "jsons/_common_impl.py:_get_generic_cls_from_str", "jsons/_common_impl.py:_lookup_announced_class", "jsons/_extra_impl.py:announce_class", "jsons/_dump_impl.py:dump"]}
{"id": "C61", "title": "The annotations of a class take effect wherever they are written", "statement": "Attributes have the type of the constructor's parameter of that name, else that of the nearest annotation in the bodies of the class and its bases, each understood with the names of the module it was written in; strings are as good as the types they stand for; parameters that default to None are optional; members come from the nearest class of the MRO; a subclass with an empty body behaves as its base. Hence instances of classes that store their parameters, such as dataclasses, come back from dump and load, with everything inherited. (Abstract classes lose their constructor's annotations on dump; one annotation that raises an AttributeError costs load all of them; names known only to the module of the class are found by load but not by dump.)", "quantifier": "every class statement, hierarchy, set of modules and annotation", "why_tests_cant": "unbounded hierarchies, nested annotations", "anchors": ["jsons/_compatibility_impl.py:get_type_hints", "jsons/deserializers/default_object.py:_get_constructor_args", "jsons/serializers/default_object.py:_get_attributes_and_types", "jsons/serializers/default_object.py:_get_complete_class_dict"]}
{"id": "C62", "title": "Calls do not influence each other through the caches", "statement": "What dump takes for the attributes and types of a class is the same after every history of calls, interruptions and evictions. A load gives what it gives in a new process after every history whose last call returned or raised an Exception; and after every history at all if the annotated class variables and properties of all classes are constructor parameters. (Otherwise a dump that was interrupted, or a serializer called directly, makes the next load ignore annotations of class variables.)", "quantifier": "every history of calls, every crash point, every eviction, document and class", "why_tests_cant": "histories and crash points", "anchors": ["jsons/_cache.py", "jsons/_compatibility_impl.py:get_type_hints", "jsons/serializers/default_object.py:_get_attributes_and_types", "jsons/deserializers/default_object.py:_set_remaining_attrs"]}
{"id": "C63", "title": "Dumps and loads end", "statement": "dump(v) ends if no infinite chain of elements, attributes, properties and class variables leads away from v, whatever the options and custom serializers; hence always without strict mode if properties are left out and class variables are left out or simple. load(j, t) ends for every document and type if the document names no classes, or only such as are loaded from its parts, and named tuples do not start with themselves. (A property or class variable that gives an instance of its class makes dump endless; a document that names typing.Union as its class makes load try exponentially many calls until the recursion limit; strings loaded as a named tuple that may start with itself become towers as high as the recursion limit.)", "quantifier": "every value, document, type, set of classes and options", "why_tests_cant": "unbounded values; a test cannot observe that something never ends", "anchors": ["jsons/_dump_impl.py:dump", "jsons/_load_impl.py:load", "jsons/serializers/default_object.py", "jsons/deserializers/default_union.py", "jsons/deserializers/default_tuple.py", "jsons/_common_impl.py:get_cls_and_meta"]}
{"id": "C64", "title": "The order of the keys in a document does not matter", "statement": "Two documents that differ only in the order of their keys, at any depth, load alike: both loads return and the results differ only in the order of dict entries and attributes, or both raise. This holds for every type that reads the document by its keys, and for constructors and validators that do not look at the order themselves. (Not for a dict where a list is expected, for dicts whose keys become equal on loading, for key transformers that make keys equal, nor for warn_on_fail together with validators.)", "quantifier": "every document, every reordering, every type, set of classes and validators", "why_tests_cant": "unbounded documents and permutations", "anchors": ["jsons/_load_impl.py:load", "jsons/deserializers/default_object.py", "jsons/deserializers/default_dict.py", "jsons/deserializers/default_tuple.py"]}
{"id": "C65", "title": "Errors name what failed", "statement": "If load raises a DeserializationError, then its source and its target tell what failed: in the course of the call, the source was to be loaded as the target (a part of the document as the type that belongs to it, or the dict with transformed keys), and loading it on its own fails with the same error, but for the indices of list elements. Every DeserializationError of load has a source and a target. The argument of an UnfulfilledArgumentError is a required parameter that the source lacks (or a field of a named tuple that must not be None), and that of a SignatureMismatchError is a key of the source that is no parameter. A Union blames the whole object, a list the first element that fails, with its index.", "quantifier": "every document, type, set of classes, options, key transformer and depth of nesting", "why_tests_cant": "unbounded documents and types", "anchors": ["jsons/exceptions.py:DeserializationError", "jsons/_load_impl.py:_do_load", "jsons/deserializers/default_object.py", "jsons/deserializers/default_list.py", "jsons/deserializers/default_union.py", "jsons/deserializers/default_tuple.py"]}
{"id": "C66", "title": "Layout of JSON text", "statement": "The keyword arguments that dumps and dumpb hand to json.dumps (indent, separators, sort_keys, ensure_ascii, allow_nan, skipkeys) change the layout only: as long as the separators are a comma and a colon with white space around them and the indentation is white space, the text is JSON, and loads gives for it exactly what load gives for the dumped value, with its keys in order if they are sorted. Well-typed values come back with every such layout. Different documents have different texts (with sort_keys: documents that differ in more than the order of entries), and no two values of a type have the same text. Without these arguments the text is that of C50. With sort_keys, values whose dumps differ only in the order of keys have the same text; dicts with both strings and integers as keys cannot be sorted (TypeError). With allow_nan=False there is no NaN and no infinity in what was written. Without indentation the text is a single line; unless ensure_ascii=False it is ASCII. What cannot be written raises a TypeError or a ValueError.", "quantifier": "every value, type, set of options of dumps and of json.dumps, and every way of loading the text", "why_tests_cant": "unbounded values, texts and layouts", "anchors": ["jsons/_dump_impl.py:dumps", "jsons/_dump_impl.py:dumpb", "jsons/_load_impl.py:loads", "jsons/_load_impl.py:loadb"]}
{"id": "C67", "title": "Casts to int, float, bool and str", "statement": "Loading a document as int, float, bool or str gives exactly what the document is as such a value, or fails with a JsonsError: a float becomes an int by dropping its fraction; a text is an int exactly when it is an integer literal (white space around, sign, decimal digits, single underscores between them); an int becomes the nearest double (ties to the even one) and up to 2^53 comes back as itself; an int becomes its decimal text, which loads as the same int; of the documents, exactly False, 0, 0.0, the empty text, list and dict are False. Lists, dicts, NaN and infinities are no ints. No option changes the result, not even strict. What one might not expect: a bool stays a bool when an int is asked for, the text 'false' is True, lists are accepted as texts, and NewTypes of int, float and bool cannot be loaded at all, while NewTypes of str turn texts into datetimes.", "quantifier": "every document, target type among the four, every set of options and every fork with the default deserializers", "why_tests_cant": "unbounded integers, floats and texts", "anchors": ["jsons/deserializers/default_primitive.py:default_primitive_deserializer", "jsons/deserializers/default_string.py:default_string_deserializer", "jsons/_load_impl.py:load"]}
{"id": "C68", "title": "Dumping with several tasks", "statement": "Dumping with any number of tasks gives, under every fair schedule of the tasks, exactly what dumping with one task gives (result or failure), provided that every outermost tuple, set, deque or other iterable that is neither list nor dict has elements and can itself be dumped; under other schedules the call gives the same or does not finish. Lists, dicts, objects and named tuples are never shared out, so that for values without other iterables tasks has no effect at all. In general an iterable never fails to dump: an element that cannot be dumped is replaced by 0, together with the rest of its task's part. What one might not expect: empty tuples and sets cannot be dumped with several tasks, strict=True does not protect against the zeros, and an attribute that would be left out is dumped as zeros.", "quantifier": "every value, class argument, set of options, fork, number of tasks and schedule of the tasks", "why_tests_cant": "schedules and values are unbounded", "anchors": ["jsons/serializers/default_iterable.py:default_iterable_serializer", "jsons/serializers/default_iterable.py:_do_dump", "jsons/serializers/default_tuple.py:default_tuple_serializer", "jsons/_multitasking.py:multi_task"]}
{"id": "C69", "title": "Calls that are cut short", "statement": "When a RecursionError, a MemoryError or any other exception stops some of the nested calls inside of a dump or a load, wherever that happens and however often: dump ends and raises nothing but SerializationError; a strict dump of a value without Unions returns the complete document or raises, and a lenient one returns the complete document or gives a warning; load ends and raises nothing but JsonsErrors (under the conditions of C29), and for documents whose types leave no choice it returns what an undisturbed load returns or raises. Values and documents that are nested too deeply for the limit are never taken for shorter ones without an error or a warning. What one might not expect: lenient dumps of deeply nested objects are truncated, Unions fall back on another alternative without any notice (in dump even with strict=True), and a date may stay a string.", "quantifier": "every value or document, type, set of options, recursion limit, and choice of the calls that are stopped and of the exceptions", "why_tests_cant": "where an exception strikes depends on the depth of the stack and on the memory that is left: there are as many points as calls, and depths are unbounded", "anchors": ["jsons/_dump_impl.py:_do_dump", "jsons/serializers/default_object.py:_do_serialize", "jsons/serializers/default_union.py:default_union_serializer", "jsons/_load_impl.py:_do_load", "jsons/deserializers/default_list.py:default_list_deserializer", "jsons/deserializers/default_union.py:default_union_deserializer", "jsons/deserializers/default_string.py:default_string_deserializer"]}
{"id": "C70", "title": "Dump and the objects it is given: sharing and cycles", "statement": "dump never changes anything it is given, whether it returns or raises and with whatever options: lists, dicts, sets, deques and objects have the same contents afterwards, however they refer to each other. What it returns shares no list, dict or object with what it was given (nor with anything else that existed before). For lists, tuples, sets, deques and dicts that contain themselves, directly or through others, it returns nothing but raises SerializationError, whatever the recursion limit; in strict mode also for objects that contain themselves. Exceptions: a lenient dump of an object that is its own attribute returns a document that is as deep as the recursion limit; an enum member that is dumped by value is dumped to the very object that is its value; a dict that is returned by a registered serializer is written to when class info is asked for.", "quantifier": "every heap of objects that refer to each other in any way, object, class argument, set of options and recursion limit", "why_tests_cant": "sharing and cycles make infinitely many shapes; a unit test compares documents and does not notice that something was changed on the way and changed back", "anchors": ["jsons/_dump_impl.py:dump", "jsons/serializers/default_list.py:default_list_serializer", "jsons/serializers/default_iterable.py:default_iterable_serializer", "jsons/serializers/default_dict.py:default_dict_serializer", "jsons/serializers/default_dict.py:_store_and_hash", "jsons/serializers/default_object.py:default_object_serializer", "jsons/serializers/default_object.py:_store_cls_info", "jsons/serializers/default_object.py:_fill_collection_of_types", "jsons/serializers/default_enum.py:default_enum_serializer"]}
{"id": "C71", "title": "Dump depends on contents only; documents share nothing", "statement": "Whether two lists, dicts or objects inside of what is dumped are one and the same or only equal makes no difference to dump: two inputs without cycles that have equal contents are dumped to equal documents or fail with equal exceptions. The document is a tree: every list and dict of it is new and occurs in it only once, also where the input contains one object many times. So whatever is proved of dump for trees (the other properties) holds for inputs with sharing as well. Exception: an enum member dumped by value occurs in the document as its own value, again and again if it is dumped more than once.", "quantifier": "every heap without cycles below the object that is dumped, object, class argument, set of options and recursion limit", "why_tests_cant": "sharing makes infinitely many shapes of inputs with the same contents; equality of documents in a unit test does not see sharing", "anchors": ["jsons/_dump_impl.py:dump", "jsons/serializers/default_list.py:default_list_serializer", "jsons/serializers/default_iterable.py:default_iterable_serializer", "jsons/serializers/default_dict.py:default_dict_serializer", "jsons/serializers/default_object.py:default_object_serializer", "jsons/serializers/default_object.py:_store_cls_info", "jsons/serializers/default_enum.py:default_enum_serializer"]}
{"id": "C72", "title": "Which texts are datetimes, dates and times, and which ones", "statement": "A text is loaded as a datetime exactly if it is a real date (four digits of the year, up to two of month and day), a T, a real time of day (up to two digits each), optionally a fraction of a second with any number of digits, and Z or an offset of less than a day; the datetime is the one that the digits say, with the fraction cut to microseconds and with that offset. Every other text is a DeserializationError, and without a target type it stays a text. No text says two datetimes. Dates and times of day are read likewise, with a Z at the end that is ignored. Exception: offsets with a second sign, white space, underscores or more than 59 minutes are accepted.", "quantifier": "every text; every set of load options", "why_tests_cant": "the set of texts is infinite and it is the texts that should be refused that tests leave out; strptime backtracks", "anchors": ["jsons/_datetime_impl.py:get_datetime_inst", "jsons/_datetime_impl.py:_datetime_utc_inst", "jsons/_datetime_impl.py:_datetime_offset_inst", "jsons/deserializers/default_datetime.py:default_datetime_deserializer", "jsons/deserializers/default_date.py:default_date_deserializer", "jsons/deserializers/default_time.py:default_time_deserializer", "jsons/deserializers/default_string.py:default_string_deserializer"]}
{"id": "C73", "title": "What load does to its argument and what the result shares with it", "statement": "Whether load returns or raises, every list, dict, set and object of the document is the same after the call as before it; the only exception is a '-keys' section, which may have lost entries. A strict load whose types do not contain Any gives a result that shares no list, dict, set or object with the document: everything that can be reached from it is new, or is part of the default values of the program. A load without a target type of a document without meta data gives a copy. Refuted: a lenient load gives parts of the document themselves where they have the type asked for, and a '-keys' section is emptied in place, so that the same document cannot be loaded twice.", "quantifier": "every heap (with sharing and cycles) and document in it; every class table, set of options and registered code that does not write to what exists; every default value", "why_tests_cant": "whether two results share a list shows only when one of them is changed later; the number of ways in which documents can be shared is unbounded", "anchors": ["jsons/_load_impl.py:load", "jsons/_load_impl.py:_should_skip", "jsons/deserializers/default_dict.py:_load_hashed_keys", "jsons/deserializers/default_dict.py:default_dict_deserializer", "jsons/deserializers/default_list.py:default_list_deserializer", "jsons/deserializers/default_object.py:default_object_deserializer", "jsons/deserializers/default_defaultdict.py:default_defaultdict_deserializer"]}
{"id": "C74", "title": "load depends on what a document says and not on how its parts are shared", "statement": "Two documents that stand for the same tree give the same when they are loaded, whatever lists and dicts they share within themselves: results that stand for the same value, or the same exception. Loading the same document again gives the same again, and load on a heap gives what load of the tree gives. The keys of dicts are texts and there are no '-keys' sections. Refuted with '-keys' sections: a dict with such a section that occurs twice in a document can be loaded only once.", "quantifier": "every heap and document without cycles in it, every class table, set of options and target type; every registered code that does the same with objects as with the trees they stand for and does not write to what exists", "why_tests_cant": "the ways in which the parts of a document can be shared are unbounded, and equality of documents does not show them", "anchors": ["jsons/_load_impl.py:load", "jsons/deserializers/default_dict.py:_load_hashed_keys", "jsons/deserializers/default_list.py:default_list_deserializer", "jsons/deserializers/default_object.py:default_object_deserializer", "jsons/deserializers/default_tuple.py:default_tuple_deserializer", "jsons/deserializers/default_iterable.py:default_iterable_deserializer"]}
{"id": "C75", "title": "load of documents that contain themselves", "statement": "load without a target type of a list, tuple, set or dict that contains itself, directly or not, raises a JsonsError, whatever the recursion limit is and wherever it strikes: it does not hang and does not return a document that was cut off. Refuted for other calls: with warn_on_fail a list that contains nothing but itself gives the empty list, for every limit; and with a target type such as a class with an attribute of the type Union[class, dict] the result is nested as deep as the recursion limit allows.", "quantifier": "every heap and document without end in it, every recursion limit and point where a nested call is cut short, every class table and set of options without warn_on_fail", "why_tests_cant": "the recursion limit and the depth at which it strikes differ from call to call; no test can try them all", "anchors": ["jsons/_load_impl.py:load", "jsons/_load_impl.py:_do_load", "jsons/deserializers/default_list.py:default_list_deserializer", "jsons/deserializers/default_union.py:default_union_deserializer", "jsons/deserializers/default_dict.py:default_dict_deserializer"]}
{"id": "C76", "title": "dump with a type that the value does not have", "statement": "dump of a value with an annotation (cls of a strict call, or the type of an attribute) that is a simple type casts the value to it as load does, writes what the cast gives and fails if the cast fails; None is written as null where the annotation is a simple type or an Optional. Refuted: None is null with every annotation (a List writes [], a class or object {}, UUID and Decimal the text 'None'); a failing attribute does not affect others (None under Set, Dict, Tuple or datetime makes the dump fail or leaves out that attribute and all later ones); the cast keeps the value (a float under int loses its fraction, a non-empty text under bool is True); every annotation can be used (Any and the bare tuple cannot, in Python 3.10).", "quantifier": "every value, annotation, class table and set of options", "why_tests_cant": "annotations are not enforced by Python, so that any value may occur under any of them", "anchors": ["jsons/serializers/default_primitive.py:default_primitive_serializer", "jsons/serializers/default_list.py:default_list_serializer", "jsons/serializers/default_object.py:default_object_serializer", "jsons/serializers/default_union.py:default_union_serializer", "jsons/serializers/default_tuple.py:default_tuple_serializer", "jsons/_lizers_impl.py:get_serializer"]}
{"id": "C77", "title": "documents that do not fit the target type", "statement": "load raises a DeserializationError if the kind of the document does not fit the target type, in lenient and in strict mode: a number for a list, anything but a dict for a dict, an object or a time zone, anything but a text for a datetime or UUID, anything but a number for a timedelta. What fits a collection is loaded as the list of its elements: the characters of a text, the keys of a dict. Refuted: of Union[List[str], str] load takes str for a text (it gives the list of the characters); objects are loaded from dicts only (an empty list or text is taken for an object without entries).", "quantifier": "every document that is not None and has no '-meta' entry, every type apart from unions, every class table, fork and set of options (objects: without a key transformer)", "why_tests_cant": "documents come from outside, so that any kind may occur where any type is expected", "anchors": ["jsons/_load_impl.py:load", "jsons/deserializers/default_object.py:default_object_deserializer", "jsons/deserializers/default_list.py:default_list_deserializer", "jsons/deserializers/default_iterable.py:default_iterable_deserializer", "jsons/deserializers/default_dict.py:default_dict_deserializer", "jsons/deserializers/default_tuple.py:default_tuple_deserializer", "jsons/deserializers/default_union.py:default_union_deserializer"]}
{"id": "C78", "title": "handlers have no influence on unrelated types", "statement": "Serializers, deserializers and validators of a type have no influence on dumps and loads that do not involve the type: result, error and effects are the same whatever is registered for it. A load involves the target type, its arguments, the annotations of the classes on the way down and what forward references stand for; a dump the types that the parts of the object are dumped with. So registering a handler for a class changes nothing but the loads and dumps that involve the class, its subclasses, NewTypes of these, or types of the same name. Refuted: this for the deserializer of datetime, which load tries for every text without a target type; and for documents that name classes under '-meta'.", "quantifier": "every two environments that differ in the handlers of a set of types, every type, document, object, fork and set of options (loads: documents, key transformers and named tuple defaults without '-meta')", "why_tests_cant": "the handlers registered elsewhere in a program are not known to whoever tests a load or dump", "anchors": ["jsons/_lizers_impl.py:set_serializer", "jsons/_lizers_impl.py:set_deserializer", "jsons/_lizers_impl.py:_get_lizer", "jsons/_validation.py:set_validator", "jsons/_load_impl.py:load", "jsons/_dump_impl.py:dump", "jsons/deserializers/default_string.py:default_string_deserializer"]}
{"id": "C79", "title": "dumps and loads in the course of a program", "statement": "Calls made with other forks (registering, suppressing warnings, forking, dumping, loading) do not change what a fork dumps; they do not change what it loads if they set no validator, announce no class and leave the default fork alone. A new fork, and a new subclass of JsonSerializable, dumps and loads as the one it is made from, up to the fork that effects are attributed to. After any history, registering a handler for a class changes no load or dump that does not involve it, with any fork; serializers never matter for load, deserializers and validators never for dump. Refuted: validators of a fork do not influence other forks (they do); dumps do not influence loads (they announce classes); what is set with a subclass leaves its parent alone (it does not).", "quantifier": "every program (classes, handlers, runtime), every history of API calls, every fork that exists after it, every object or document, type and set of options", "why_tests_cant": "the same call gives different results at different times of a program; a test fixes one history", "anchors": ["jsons/_lizers_impl.py:set_serializer", "jsons/_lizers_impl.py:set_deserializer", "jsons/_validation.py:set_validator", "jsons/_fork_impl.py:fork", "jsons/_extra_impl.py:announce_class", "jsons/_common_impl.py:StateHolder", "jsons/_dump_impl.py:dump", "jsons/_load_impl.py:load"]}
{"id": "C80", "title": "round trip by way of a strict dump", "statement": "load(dump(v, t, strict=True), t) == v for values that are well typed all the way down, as long as classes declare their attributes and, where a strict dump does without the type (values of dicts, fields of named tuples, attributes without annotation), the elements of each list are of one class and there are no tuples. Refuted: that every value that survives a lenient dump survives a strict one: [None, 3] or a list of tuples as a value of a dict raises, although the type of the dict is given; attributes that are not declared are lost.", "quantifier": "every type and value of the above kind, to any depth; every class table, fork, selection of attributes; strict and lenient loads", "why_tests_cant": "types, values and classes are unbounded, and which type reaches which part depends on the whole path to it", "anchors": ["jsons/serializers/default_object.py:default_object_serializer", "jsons/serializers/default_object.py:_get_attributes_from_class", "jsons/serializers/default_list.py:default_list_serializer", "jsons/serializers/default_iterable.py:default_iterable_serializer", "jsons/serializers/default_tuple.py:default_tuple_serializer", "jsons/serializers/default_dict.py:default_dict_serializer", "jsons/_load_impl.py:load"]}
{"id": "C81", "title": "constructor calls of load", "statement": "Each object in the result of load was made by a constructor call of its own: there are at least as many calls of the constructor of a class as instances of it in the result. Where the types leave no choice (no Union with more than one alternative besides None), load calls no more constructors than the document has places for objects, whether it returns or raises. So where there is an object for every place, each is constructed exactly once. Refuted: the bound for Unions with alternatives, where a part of the document may be constructed again for every alternative; and that every constructed object is in the result.", "quantifier": "every class table, registry, document, type, depth, arguments of load; the upper bound for documents without '-meta'", "why_tests_cant": "documents and classes are unbounded, and constructors are called at any depth of the recursion", "anchors": ["jsons/deserializers/default_object.py:default_object_deserializer", "jsons/deserializers/default_object.py:_get_constructor_args", "jsons/deserializers/default_object.py:_get_remaining_args", "jsons/deserializers/default_union.py:default_union_deserializer", "jsons/deserializers/default_list.py:default_list_deserializer", "jsons/deserializers/default_dict.py:_load_hashed_keys", "jsons/_load_impl.py:load"]}
{"id": "C82", "title": "the order of dict entries and attributes does not matter for dump", "statement": "Two values that differ only in the order of the entries of dicts and of the attributes of objects, at any depth, dump to documents that differ only in the order of their entries, or both dumps raise SerializationError. With sort_keys=True the texts of dumps are equal. Refuted: for a dict that is dumped as a list, for key transformers that make two keys equal, and for keys that are filed under their hash when hashes clash.", "quantifier": "every class table, registry copy with the default serializers, depth, strict mode or not, type, options without verbose class information, and every pair of values that differ in order only", "why_tests_cant": "values are unbounded and may be reordered at any depth, and each object is dumped by a walk over dir()", "anchors": ["jsons/serializers/default_object.py:default_object_serializer", "jsons/serializers/default_object.py:_get_attributes_from_object", "jsons/serializers/default_object.py:_get_attributes_from_class", "jsons/serializers/default_object.py:_do_serialize", "jsons/serializers/default_dict.py:default_dict_serializer", "jsons/serializers/default_list.py:default_list_serializer", "jsons/serializers/default_iterable.py:default_iterable_serializer", "jsons/serializers/default_tuple.py:default_tuple_serializer", "jsons/serializers/default_union.py:default_union_serializer", "jsons/_dump_impl.py:dump"]}
{"id": "C83", "title": "keyword arguments of json.loads", "statement": "loads and loadb with jdkwargs parse_int, parse_float, parse_constant, object_hook and object_pairs_hook: the functions are applied to the parts of the text, parts before wholes and from left to right, each to the literal, the dict or all pairs of its part, and load gets the result. Functions that do what json.loads does without them change nothing, and object_hook is ignored if there is an object_pairs_hook. A text that is no JSON raises DecodeError unless a function raised before; every exception is a DecodeError, one of load, or one of a function. Refuted: that functions may return anything (Decimal and OrderedDict are rejected by load unless cls is that very type), and that all exceptions are JsonsErrors.", "quantifier": "every text, every functions (without side effects), class table, registry, cls, arguments of load", "why_tests_cant": "texts and nesting are unbounded, and the functions are arbitrary", "anchors": ["jsons/_load_impl.py:loads", "jsons/_load_impl.py:loadb", "jsons/_load_impl.py:_check_and_get_cls_and_meta_hints", "jsons/_common_impl.py:VALID_TYPES"]}
{"id": "C84", "title": "the argument default of json.dumps", "statement": "dumps and dumpb with jdkwargs default (and any layout arguments): the function is called with exactly the objects in the dumped value that json cannot write, and with those in what it returns; the text, or the exception, is the one json.dumps gives for the dumped value with these objects replaced, and loads of the text is load of that value. A function that is never needed changes nothing, which is so for everything the default serializers dump. If there is a text, every object was answered with another one; every exception is one of dump, one of the function, or a TypeError or ValueError. Refuted: that keys of dicts are given to the function, that its exceptions become SerializationErrors, and that it may return its argument.", "quantifier": "every value, function (also with effects), layout, class table, registry, options of dump", "why_tests_cant": "values, nesting and what the function returns are unbounded", "anchors": ["jsons/_dump_impl.py:dumps", "jsons/_dump_impl.py:dumpb", "jsons/serializers/default_enum.py:default_enum_serializer"]}
{"id": "C85", "title": "the position of a DecodeError", "statement": "For every str that is no JSON text, and only for those, loads raises a DecodeError; its source and doc are the str, its target the class, and its position is where the text goes wrong: at a token that is no value, at a wrong or missing comma, colon, bracket or key, at a control character or bad escape in a string, at the beginning of a string without end, at what follows a complete value. Everything before the position can be continued to a JSON text. The line and column are those of the position. These places are described by a grammar, and every text that goes wrong does so in exactly one of them. For bytes the position counts characters of the decoded text. Refuted: that the position is the end of the longest beginning that can be continued, that the position of loadb is one in the bytes, and that the source of loadb's error is the bytes.", "quantifier": "every text, bytes and class", "why_tests_cant": "texts and nesting are unbounded; a wrong position needs a text that goes wrong in a particular nested place", "anchors": ["jsons/exceptions.py:DecodeError", "jsons/_load_impl.py:loads", "jsons/_load_impl.py:loadb"]}
{"id": "C86", "title": "texts that are cut off, joined, surrounded by white space, or written line by line", "statement": "If what was dumped is no number, no text of dumps can be loaded once its end is missing, wherever it is cut: loads raises a DecodeError; with dumpb and loadb a DecodeError, or a UnicodeDecodeError if the cut is inside a character. If such a text is followed by anything but white space, loads raises a DecodeError whose position is the end of the first text. White space before and after a text changes nothing about loads, whether it succeeds or fails. Texts written one per line without indentation are exactly the lines of the file, however they are taken apart, and a line is loaded alike with and without its line feed. Refuted: the first two for numbers, and the last with indentation: an integer that is cut off is loaded as its quotient by a power of ten, rounded towards zero, and two that are joined as the one with the digits of both.", "quantifier": "every dumped value, layout that leaves JSON, cut, following text, white space, list of texts", "why_tests_cant": "there are as many cuts as characters, for every value; crash points cannot be enumerated", "anchors": ["jsons/_dump_impl.py:dumps", "jsons/_dump_impl.py:dumpb", "jsons/_load_impl.py:loads", "jsons/_load_impl.py:loadb"]}
{"id": "C87", "title": "json.loads with strict=False", "statement": "loads and loadb with jdkwargs={'strict': False} do with a text what they do without it with the text in which the control characters within strings are written as escapes: the same result, the same effects, the same errors. What can be loaded without it is loaded alike, and a text without control characters is treated alike also if it fails. Control characters outside of strings, other than white space, and after a backslash are still errors.", "quantifier": "every text and bytes, class and options", "why_tests_cant": "texts and nesting are unbounded; a difference needs a control character in a particular place of a nested text", "anchors": ["jsons/_load_impl.py:loads", "jsons/_load_impl.py:loadb"]}

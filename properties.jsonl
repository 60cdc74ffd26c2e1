{"id": "C01", "title": "Null handling", "statement": "For every field type, phase and serialized flag, process(None) returns None when the field is nullable and raises a ValidationError carrying exactly the token nonnull when nonnull=True; nothing else about the field (bounds, constant, preprocessor, children) is consulted.", "quantifier": "all 22 field types, all parameter settings, both phases, both serialized flags, every ancestry", "why_tests_cant": "the claim covers every combination of field type, parameters and nesting; tests sample a few fields", "anchors": ["scheme/field.py: Field.process, Field._is_null", "scheme/fields/*.py: process"]}
{"id": "C02", "title": "Integer acceptance is exact", "statement": "Integer.process on a native value succeeds exactly for non-boolean integers within [minimum, maximum], returning the value unchanged; below minimum the only error is minimum, above maximum it is maximum, anything else is an InvalidTypeError with token invalid.", "quantifier": "all Python values, all integer bounds", "why_tests_cant": "the integers are unbounded and every other type must be rejected", "anchors": ["scheme/fields/integer.py: Integer._validate_value"]}
{"id": "C03", "title": "Integer text round trip", "statement": "Serializing any accepted integer yields the same integer, and unserializing either the integer or its decimal text (with surrounding whitespace and a sign) yields that integer; booleans are rejected in every phase.", "quantifier": "all integers and all decimal renderings", "why_tests_cant": "unbounded domain", "anchors": ["scheme/fields/integer.py: Integer._unserialize_value"]}
{"id": "C04", "title": "Float bounds", "statement": "Float.process accepts only float objects and, NaN aside, an accepted value is within [minimum, maximum]; NaN is accepted whatever the bounds are.", "quantifier": "all IEEE binary64 values including infinities, signed zeros and NaN, all bounds", "why_tests_cant": "2^64 values times bounds; NaN comparisons are easily missed", "anchors": ["scheme/fields/float.py: Float._validate_value"]}
{"id": "C05", "title": "Decimal text round trip and bounds", "statement": "For every decimal value str() followed by unserialization returns exactly the same decimal (sign, coefficient and exponent); accepted finite decimals lie within the bounds; comparing NaN with a bound escapes as an arithmetic error instead of a ValidationError.", "quantifier": "all decimals of any precision and exponent, all bounds", "why_tests_cant": "unbounded precision and exponent", "anchors": ["scheme/fields/decimal.py: Decimal._serialize_value, _unserialize_value, _validate_value"]}
{"id": "C06", "title": "Text canonicalisation", "statement": "Text.process returns the input with leading and trailing whitespace removed (or unchanged if strip=False); it succeeds exactly when that string has between min_length and max_length characters and matches the pattern; the error token names the first violated constraint in the order invalid, min_length, max_length, pattern.", "quantifier": "all strings over all code points, all parameter settings, all patterns", "why_tests_cant": "strings are unbounded; ordering of strip and length checks matters at boundaries", "anchors": ["scheme/fields/text.py: Text._validate_value"]}
{"id": "C07", "title": "Binary round trip", "statement": "For every byte string b accepted by a Binary field, serializing to URL-safe base64 and unserializing gives back b; the encoding uses only the URL-safe alphabet and has length 4*ceil(n/3).", "quantifier": "all byte strings of every length", "why_tests_cant": "unbounded length, three padding cases", "anchors": ["scheme/fields/binary.py: Binary"]}
{"id": "C08", "title": "Binary malformed input", "statement": "Unserializing a byte string that is not valid base64 is reported as a ValidationError like every other malformed input, never as an unrelated exception.", "quantifier": "all byte strings whose number of base64 characters is not a multiple of 4 and which are not correctly padded", "why_tests_cant": "needs every malformed input", "anchors": ["scheme/fields/binary.py: Binary._unserialize_value"]}
{"id": "C09", "title": "Date round trip and bounds", "statement": "For every calendar date with a four digit year, unserialize(serialize(d)) = d and the text is YYYY-MM-DD; unserialization accepts only strings denoting an existing calendar day; accepted dates lie within [minimum, maximum] chronologically.", "quantifier": "all dates of years 1..9999, all strings, all bounds", "why_tests_cant": "3.6 million dates and all strings", "anchors": ["scheme/fields/date.py: Date"]}
{"id": "C10", "title": "Time round trip and bounds", "statement": "For every time of day, unserialize(serialize(t)) is t with microseconds dropped; accepted times lie within the bounds; only strings denoting an existing time of day are accepted.", "quantifier": "all times, all strings, all bounds", "why_tests_cant": "86400 seconds times microseconds and all strings", "anchors": ["scheme/fields/time.py: Time"]}
{"id": "C11", "title": "DateTime instants", "statement": "Serializing any accepted datetime (naive, UTC, or with any fixed offset) to text and unserializing it with a UTC field denotes the same instant truncated to seconds; naive values are interpreted in the field timezone.", "quantifier": "all datetimes, all offsets, all utc settings", "why_tests_cant": "unbounded combinations of instants and offsets", "anchors": ["scheme/fields/datetime.py: DateTime", "scheme/timezone.py: FixedOffsetTimezone, LocalTimezone"]}
{"id": "C12", "title": "DateTime bounds", "statement": "An accepted datetime is not before minimum nor after maximum, as instants for UTC fields.", "quantifier": "all datetimes, offsets and bounds", "why_tests_cant": "offset arithmetic at boundaries", "anchors": ["scheme/fields/datetime.py: DateTime._validate_value"]}
{"id": "C13", "title": "Enumeration membership", "statement": "Enumeration.process succeeds exactly on members of the enumeration (Python equality), returns the candidate unchanged; ignored values are treated as null.", "quantifier": "all enumerations, ignored lists and candidates", "why_tests_cant": "cross-type equality (1, True, 1.0) must hold for every list", "anchors": ["scheme/fields/enumeration.py: Enumeration"]}
{"id": "C14", "title": "Boolean acceptance", "statement": "Boolean.process accepts exactly True and False (never 0 or 1) in all phases.", "quantifier": "all Python values, all phases", "why_tests_cant": "every other value must be rejected", "anchors": ["scheme/fields/boolean.py: Boolean"]}
{"id": "C15", "title": "Token grammar", "statement": "Token.process accepts a string exactly when it is a colon separated list of segments made of word characters, dots, plus and minus that start and end with a word character, optionally followed by one newline; with segments=n there are exactly n segments.", "quantifier": "all strings, all segments settings", "why_tests_cant": "infinite language; the anchor $ admits a trailing newline", "anchors": ["scheme/fields/token.py: Token"]}
{"id": "C16", "title": "UUID grammar", "statement": "UUID.process accepts exactly strings of 8-4-4-4-12 lowercase hexadecimal digits, optionally followed by one newline.", "quantifier": "all strings", "why_tests_cant": "infinite set of rejected strings", "anchors": ["scheme/fields/uuid.py: UUID"]}
{"id": "C17", "title": "Email grammar and normalisation", "statement": "Email.process (not extended) accepts exactly empty strings or addresses local@domain after trimming separators and lowercasing; in multiple mode the result is a comma separated list of such addresses.", "quantifier": "all strings", "why_tests_cant": "infinite language", "anchors": ["scheme/fields/email.py: Email"]}
{"id": "C18", "title": "Constant", "statement": "For every non structural field with constant=c, a non-null candidate is accepted only if (after unserialization and preprocessing) it equals c; structural fields ignore constant.", "quantifier": "all fields, constants and candidates", "why_tests_cant": "must hold for all values and all field types", "anchors": ["scheme/field.py: Field.process"]}
{"id": "C19", "title": "Sequence processing is exact", "statement": "Sequence.process succeeds exactly for lists within the length bounds all of whose items the item field accepts (and distinct if unique); the result lists the items results in order; otherwise the error has the documented token or a structure of the same length holding an error exactly at the failing positions.", "quantifier": "all lists of any length, item fields of any depth, both phases", "why_tests_cant": "unbounded length and nesting", "anchors": ["scheme/fields/sequence.py: Sequence.process"]}
{"id": "C20", "title": "Sequence uniqueness", "statement": "With unique=True an accepted result has pairwise different items; a result with two equal items is rejected with token duplicate and no other error.", "quantifier": "all lists, all item fields", "why_tests_cant": "all pairs of positions", "anchors": ["scheme/fields/sequence.py: Sequence.process"]}
{"id": "C21", "title": "Map processing is exact", "statement": "Map.process succeeds exactly when every key is accepted by the key field (or is a string), every value by the value field and every required key is present; on success with distinct processed keys the result associates each processed key with the processed value.", "quantifier": "all dicts, key and value fields, required keys", "why_tests_cant": "unbounded dicts", "anchors": ["scheme/fields/map.py: Map.process"]}
{"id": "C22", "title": "Map key collisions", "statement": "Map.process never loses an entry: distinct input keys give distinct entries of the result (or of the error structure), also when the key field normalises keys; no failing value is masked.", "quantifier": "all maps with colliding processed keys", "why_tests_cant": "needs specific interactions of key processing and order", "anchors": ["scheme/fields/map.py: Map.process"]}
{"id": "C23", "title": "Tuple processing is exact", "statement": "Tuple.process succeeds exactly for lists or tuples with one value per field, each accepted by its field; the result is the tuple of results; otherwise token length or invalid, or a positional error structure.", "quantifier": "all values, tuples of any arity", "why_tests_cant": "unbounded arity and nesting", "anchors": ["scheme/fields/tuple.py: Tuple.process"]}
{"id": "C24", "title": "Structure success is exact", "statement": "Structure.process (not polymorphic) succeeds exactly when no unknown key is present (or strict=False), every present key is accepted by its field, every absent required key has a usable default; the result has exactly the present and defaulted keys with the fields results.", "quantifier": "all dicts, all structures, both phases, serialized or not", "why_tests_cant": "unbounded number of fields and nesting", "anchors": ["scheme/fields/structure.py: Structure.process"]}
{"id": "C25", "title": "Structure errors are exact and complete", "statement": "When Structure.process fails on a dict, the raised error structure maps every failing key to its error (required, unknown or the field error), and every good key to its processed value: all failures are reported at once and none is invented.", "quantifier": "all dicts and structures", "why_tests_cant": "every subset of keys may fail", "anchors": ["scheme/fields/structure.py: Structure.process"]}
{"id": "C26", "title": "Defaults are applied inbound only", "statement": "An absent key with a default gets the processed default inbound; outbound it is left out (or is a required error); a partial run neither applies defaults nor requires keys.", "quantifier": "all structures, values, phases, partial flags", "why_tests_cant": "all combinations", "anchors": ["scheme/fields/structure.py: Structure.process"]}
{"id": "C27", "title": "ignore_null is treated as absence", "statement": "As documented, a null for an ignore_null field of a structure is treated exactly as if no value was present: the default is applied and required is enforced.", "quantifier": "all structures with ignore_null fields", "why_tests_cant": "combination of three parameters", "anchors": ["scheme/fields/structure.py: Structure.process", "scheme/field.py: Field docstring"]}
{"id": "C28", "title": "Polymorphic selection", "statement": "A polymorphic Structure processes a value exactly with the variant selected by its discriminator: absent discriminator gives required, unknown gives unrecognized, and the result carries the discriminator.", "quantifier": "all polymorphic structures and values", "why_tests_cant": "all variants and discriminators", "anchors": ["scheme/fields/structure.py: Structure.__init__, Structure.process"]}
{"id": "C29", "title": "Key order", "statement": "With key_order listing exactly the keys, the result keys appear in that order; listing an undefined key makes every value fail with KeyError; omitting a key drops or rejects that key.", "quantifier": "all structures, key orders and values", "why_tests_cant": "all permutations", "anchors": ["scheme/fields/structure.py: Structure.process"]}
{"id": "C30", "title": "Union takes the first field of the right type", "statement": "Union.process returns the outcome of the first field that does not raise InvalidTypeError, and raises InvalidTypeError invalid when all do; hence a later field that would accept is not reached when an earlier one raises ValidationError.", "quantifier": "all unions and values", "why_tests_cant": "all orders and member fields", "anchors": ["scheme/fields/union.py: Union.process"]}
{"id": "C31", "title": "Soundness of validation for nested schemas", "statement": "Whatever process returns for an inbound value (serialized or not) conforms to the schema at every level: types, bounds, lengths, required keys, no unknown keys.", "quantifier": "all schemas of any depth including recursive ones, all values", "why_tests_cant": "unbounded depth", "anchors": ["scheme/field.py: Field.process", "scheme/fields/*.py: process"]}
{"id": "C32", "title": "Completeness of validation", "statement": "A native value that conforms to a preprocessor free schema is accepted and returned unchanged up to dict ordering and the schema normalisations.", "quantifier": "all schemas and conforming values", "why_tests_cant": "unbounded depth", "anchors": ["scheme/field.py: Field.process"]}
{"id": "C33", "title": "Idempotence", "statement": "Processing the result of a successful native inbound run again returns the same result, for schemas without preprocessors, unions and ignore_null.", "quantifier": "all such schemas and values", "why_tests_cant": "unbounded depth", "anchors": ["scheme/field.py: Field.process"]}
{"id": "C34", "title": "Serialization round trip", "statement": "For every conforming native value of a schema of round-trippable types, process outbound serialized then inbound serialized returns the value.", "quantifier": "all schemas, all conforming values", "why_tests_cant": "unbounded depth and all scalar codecs", "anchors": ["scheme/field.py: Field.serialize, Field.unserialize"]}
{"id": "C35", "title": "Error locations", "statement": "Every error nested in a raised error carries as identity the path of keys and indices at which it sits in the structure.", "quantifier": "all schemas and failing values", "why_tests_cant": "unbounded depth", "anchors": ["scheme/fields/*.py: process", "scheme/exceptions.py: StructuralError"]}
{"id": "C36", "title": "Only structural errors escape", "statement": "For fully defined schemas of the ordinary types no value, however malformed, makes process raise anything but a structural error; the exact exceptions are characterised.", "quantifier": "all schemas, all Python values, both phases", "why_tests_cant": "totality over all inputs", "anchors": ["scheme/fields/*.py: process"]}
{"id": "C37", "title": "Rejections carry a reason", "statement": "Every structural error raised by process contains at least one error token somewhere, unless a Map with a key field collapsed keys.", "quantifier": "all schemas and values", "why_tests_cant": "unbounded depth", "anchors": ["scheme/exceptions.py: StructuralError", "scheme/fields/*.py: process"]}
{"id": "C38", "title": "Undefined placeholders", "statement": "Using a structural field with an unresolved Undefined child raises UndefinedFieldError as soon as the child is needed, and behaves as the defined field after define; a Structure that needs the default or required flag of an absent undefined child raises AttributeError instead.", "quantifier": "all structural fields with placeholders, all values", "why_tests_cant": "recursive schemas, all positions", "anchors": ["scheme/field.py: Undefined", "scheme/fields/*.py: process, _define_undefined_field"]}
{"id": "C39", "title": "Error serialization mirrors the error", "statement": "StructuralError.serialize returns the list of own errors and a structure that has an entry exactly for each nested error, recursively.", "quantifier": "all error trees", "why_tests_cant": "unbounded depth", "anchors": ["scheme/exceptions.py: StructuralError.serialize, _serialize_structure"]}
{"id": "C40", "title": "Error unserialization", "statement": "unserialize(serialize(e)) preserves the top level errors when there are any; for a purely structural error it raises TypeError, and nested structure is not restored.", "quantifier": "all error trees", "why_tests_cant": "all shapes", "anchors": ["scheme/exceptions.py: StructuralError.unserialize", "scheme/fields/error.py: Error"]}
{"id": "C41", "title": "Error serialization cache", "statement": "After any history of append, merge, attach and serialize calls, serialize(force=True) reflects the current state of the error, and serialize() returns the result of the latest computation.", "quantifier": "all histories of append, merge, attach and serialize", "why_tests_cant": "histories", "anchors": ["scheme/exceptions.py: StructuralError.serialize"]}
{"id": "C42", "title": "Error formatting enumerates leaves", "statement": "format_errors lists the own errors and then every leaf error of the structure once, in order, numbered from 1; the text of the error is the line \"validation failed\" and this list; it is substantive exactly if there is something to serialize.", "quantifier": "all error trees", "why_tests_cant": "unbounded depth", "anchors": ["scheme/exceptions.py: StructuralError.format_errors, __str__, substantive"]}
{"id": "C43", "title": "describe then reconstruct", "statement": "For every describable field, reconstruct(describe(f)) validates exactly like f apart from the parameters a description drops (pattern, preprocessor, extractor, instantiator, key_order...).", "quantifier": "all field trees", "why_tests_cant": "unbounded depth", "anchors": ["scheme/field.py: Field.describe, FieldMeta.reconstruct, Field.construct"]}
{"id": "C44", "title": "reconstruct does not consume its argument", "statement": "Reconstructing a field leaves the specification given by the caller unchanged, so it can be used again.", "quantifier": "all specifications", "why_tests_cant": "aliasing over all nested specifications", "anchors": ["scheme/field.py: FieldMeta.reconstruct, Field._construct_parameter"]}
{"id": "C45", "title": "clone", "statement": "A clone validates like the original with the given parameters replaced; cloning never changes the original.", "quantifier": "all fields and overrides", "why_tests_cant": "all parameter combinations", "anchors": ["scheme/field.py: Field.clone"]}
{"id": "C46", "title": "filter", "statement": "Field.filter keeps a field iff (any or all of) the given attribute tests match; Structure.filter keeps exactly the matching children recursively and returns the same object when nothing is dropped.", "quantifier": "all field trees and filters", "why_tests_cant": "unbounded trees", "anchors": ["scheme/field.py: Field.filter", "scheme/fields/structure.py: Structure.filter, _filter_structure"]}
{"id": "C47", "title": "transform", "statement": "transform returns the same object when the transformer changes nothing, and otherwise a tree in which exactly the fields for which it returned a field are replaced, everything else keeping its shape.", "quantifier": "all field trees and transformers", "why_tests_cant": "arbitrary functions over arbitrary trees", "anchors": ["scheme/fields/*.py: transform"]}
{"id": "C48", "title": "screen", "statement": "screen returns True exactly when every non None test equals the attribute of the field.", "quantifier": "all fields and tests", "why_tests_cant": "all combinations", "anchors": ["scheme/field.py: Field.screen"]}
{"id": "C49", "title": "extend and replace", "statement": "extend yields the old fields overridden by the new ones; replace only changes keys already present; the original structure is unchanged.", "quantifier": "all structures", "why_tests_cant": "all dicts of fields", "anchors": ["scheme/fields/structure.py: Structure.extend, replace"]}
{"id": "C50", "title": "insert, remove and merge", "statement": "insert without overwrite never changes an existing key; remove removes exactly the named keys; merge without prefer keeps existing fields but stops at the first clash, dropping the rest.", "quantifier": "all structures, all histories of edits", "why_tests_cant": "histories of edits", "anchors": ["scheme/fields/structure.py: Structure.insert, remove, merge"]}
{"id": "C51", "title": "generate_defaults", "statement": "generate_defaults returns for each key its default, else its constant, leaving out keys with neither when sparse.", "quantifier": "all structures", "why_tests_cant": "all structures", "anchors": ["scheme/fields/structure.py: Structure.generate_defaults"]}
{"id": "C52", "title": "Constructor validation", "statement": "Constructors accept exactly the documented parameter types and nonempty implies required, nonnull and min_length 1 where applicable.", "quantifier": "all parameter values", "why_tests_cant": "all combinations", "anchors": ["scheme/fields/*.py: __init__"]}
{"id": "C53", "title": "extract", "statement": "Structure.extract keeps exactly the defined keys with non null values, recursively extracted; other structural fields keep their shape; a conforming value without extractors is returned unchanged up to null entries.", "quantifier": "all schemas and subjects", "why_tests_cant": "unbounded depth", "anchors": ["scheme/fields/*.py: extract"]}
{"id": "C54", "title": "instantiate", "statement": "instantiate applies the instantiator of every field bottom up and is the identity without instantiators.", "quantifier": "all schemas and values", "why_tests_cant": "unbounded depth", "anchors": ["scheme/fields/*.py: instantiate"]}
{"id": "C55", "title": "extract inverts instantiate", "statement": "If every extractor inverts its instantiator then extract(instantiate(v)) = v for null free conforming values.", "quantifier": "all schemas, all pairs of callables", "why_tests_cant": "arbitrary functions", "anchors": ["scheme/fields/*.py: extract, instantiate"]}
{"id": "C56", "title": "interpolate", "statement": "interpolate leaves native values alone, replaces exactly variable references, drops structure and map entries whose parameter is undefined and keeps shapes.", "quantifier": "all schemas, subjects and parameters", "why_tests_cant": "unbounded depth", "anchors": ["scheme/fields/*.py: interpolate"]}
{"id": "C57", "title": "Simple interpolation recognises only whole references", "statement": "interpolate_parameters in simple mode evaluates the expression exactly for strings of the form blank ${expr} blank with non empty expr without }, and returns any other string unchanged.", "quantifier": "all strings", "why_tests_cant": "infinite set of strings", "anchors": ["scheme/interpolation.py: interpolate_parameters, VARIABLE_EXPR"]}
{"id": "C58", "title": "StructuredText round trip", "statement": "unserialize(serialize(v)) = v for nested lists and dicts of booleans, nulls and strings free of separators.", "quantifier": "all such values of any depth", "why_tests_cant": "regular expression rewriting of unbounded texts", "anchors": ["scheme/formats/structuredtext.py: StructuredText"]}
{"id": "C59", "title": "StructuredText parsing terminates", "statement": "Unserializing any text terminates after at most as many passes as it has opening brackets.", "quantifier": "all strings", "why_tests_cant": "termination for all inputs", "anchors": ["scheme/formats/structuredtext.py: StructuredText._unserialize_structured_value"]}
{"id": "C60", "title": "StructuredText preserves arbitrary texts", "statement": "StructuredText preserves every nested structure of texts, numbers, booleans and nulls, whatever characters the texts contain.", "quantifier": "pairs of different values with equal text", "why_tests_cant": "needs pairs of values", "anchors": ["scheme/formats/structuredtext.py: StructuredText"]}
{"id": "C61", "title": "UrlEncoded", "statement": "For dicts of non empty safe texts urlencoded unserialize(serialize(d)) = d; through Field.serialize the format always raises TypeError.", "quantifier": "all such dicts", "why_tests_cant": "percent encoding over all code points", "anchors": ["scheme/formats/urlencoded.py: UrlEncoded"]}
{"id": "C62", "title": "YAML text", "statement": "Yaml.serialize emits one well indented block per value; its quoting is not injective (text that looks like a number is emitted bare); a text of one line without blanks around it and without a colon at its end is written as a scalar that YAML reads as that text.", "quantifier": "all values", "why_tests_cant": "unbounded depth", "anchors": ["scheme/formats/yaml.py: Yaml"]}
{"id": "C63", "title": "CSV round trip", "statement": "Csv.unserialize(Csv.serialize(rows)) returns the rows restricted to the scalar columns, without empty cells, for cells without CRLF.", "quantifier": "all tables", "why_tests_cant": "quoting over all strings", "anchors": ["scheme/formats/csv.py: Csv"]}
{"id": "C64", "title": "XML round trip", "statement": "Xml.unserialize inverts Xml.serialize for the supported field types; empty text becomes null. Texts are parsed exactly by the grammar of XML (without name spaces, comments, CDATA sections, processing instructions and document types), each as the element it writes, and the element is read by the types of the fields.", "quantifier": "all schemas and values", "why_tests_cant": "unbounded depth", "anchors": ["scheme/formats/xml.py: Xml"]}
{"id": "C65", "title": "Format registry", "statement": "A format is found by name, by mimetype, by lower-cased file extension or by class, and unknown ones raise ValueError.", "quantifier": "all paths and format names", "why_tests_cant": "all path strings", "anchors": ["scheme/format.py: FormatMeta, Format"]}
{"id": "C66", "title": "write then read", "statement": "Writing a value and reading it back with the same format returns what the codec round trip gives; reading a missing file raises ValueError or returns False when quiet.", "quantifier": "all paths, contents, formats", "why_tests_cant": "all file system states", "anchors": ["scheme/format.py: Format.read, Format.write", "scheme/field.py: Field.read, Field.write"]}
{"id": "C67", "title": "Failed writes", "statement": "Field.write validates before opening the file, so a validation error leaves the file intact; a format error after the open leaves it truncated.", "quantifier": "all failure points", "why_tests_cant": "crash points", "anchors": ["scheme/format.py: Format.write", "scheme/field.py: Field.write"]}
{"id": "C68", "title": "Nested paths", "statement": "traverse_to_key after set_nested_value returns the value set, every other path is unchanged, and missing intermediate keys raise KeyError or TypeError without modification.", "quantifier": "all dicts and paths", "why_tests_cant": "unbounded depth", "anchors": ["scheme/util.py: traverse_to_key, set_nested_value"]}
{"id": "C69", "title": "recursive_merge", "statement": "After recursive_merge the leaf at every path is that of the addition if it has one there, else that of the original, unless the addition has a dict at that path or a leaf on the way to it.", "quantifier": "all nested dicts", "why_tests_cant": "unbounded depth", "anchors": ["scheme/util.py: recursive_merge"]}
{"id": "C70", "title": "Text utilities", "statement": "indent prefixes exactly the lines, minimize_string collapses whitespace runs and is idempotent, pluralize leaves singular words alone.", "quantifier": "all strings", "why_tests_cant": "all strings", "anchors": ["scheme/util.py: indent, minimize_string, pluralize, abbreviate_string"]}
{"id": "C71", "title": "Element round trip", "statement": "Element.unserialize then serialize returns the processed value for flat and polymorphic schemas.", "quantifier": "all schemas and values", "why_tests_cant": "all values", "anchors": ["scheme/element.py: Element"]}
{"id": "C72", "title": "Surrogates", "statement": "Versioned and dynamic surrogates round trip through serialize and unserialize with their schema and version.", "quantifier": "all surrogates", "why_tests_cant": "all schemas and versions", "anchors": ["scheme/surrogate.py: surrogate", "scheme/fields/surrogate.py: Surrogate"]}
{"id": "C73", "title": "visit", "statement": "Field.visit applies the callback exactly to the immediate nested specifications.", "quantifier": "all specifications", "why_tests_cant": "all specifications", "anchors": ["scheme/field.py: Field.visit", "scheme/fields/*.py: _visit_field"]}
{"id": "C74", "title": "JSON round trip", "statement": "Json.unserialize(Json.serialize(v)) returns v with tuples as lists, dicts as plain dicts in the same order and keys as texts, for every value of null, booleans, numbers, texts and containers whose texts have no high surrogate directly before a low one and whose keys have different texts; any other kind of value is a TypeError; unserializing any text gives a value exactly when the text belongs to the grammar of JSON (RFC 8259 with NaN and infinities, later members of equal name counting) with that meaning, and a ValueError otherwise, and a value read can be written and read again without change.", "quantifier": "all values of any depth, all texts", "why_tests_cant": "escapes over all code points, unbounded depth", "anchors": ["scheme/formats/json.py: Json"]}
{"id": "C75", "title": "Inbound conversions", "statement": "Unserializing with an Integer field takes floats and decimals without their fraction and refuses infinities and NaN; a Decimal field takes floats and integers as exactly the same number, and tuples or lists of a sign, digits and an exponent as the decimal they make; digits of other scripts count as the digits of ASCII in texts of numbers; underscores between digits do not count in them, and underscores elsewhere make a text no integer and no float; values that are native already are not converted (a Date field lets datetimes through); dates, times and datetimes are read from texts only and Binary from bytes only; Object imports texts and reports import; Definition reconstructs descriptions and reports every failure as invalid. After the conversion the value is processed like a native one.", "quantifier": "all values, all parameter settings", "why_tests_cant": "all floats and decimals, arbitrary callables", "anchors": ["scheme/fields/*.py: _unserialize_value"]}
{"id": "C76", "title": "has_required_fields", "statement": "has_required_fields is True for polymorphic structures and otherwise exactly when some field is required without a default; when it is True the empty dict is refused inbound, when it is False the empty dict is accepted provided the fields accept their defaults.", "quantifier": "all structures", "why_tests_cant": "all definitions", "anchors": ["scheme/fields/structure.py:125-137"]}
{"id": "C77", "title": "Enumeration.redefine", "statement": "redefine(values, append) makes the members of an enumeration exactly the old and given values, redefine(values, replace) exactly the given ones, no two of them equal; other strategies are refused with ValueError, unhashable values with TypeError.", "quantifier": "all enumerations and lists of values", "why_tests_cant": "all lists, equality across types", "anchors": ["scheme/fields/enumeration.py:56-67"]}
{"id": "C78", "title": "format_structure", "statement": "format_structure never shows a value under a masked key, at any depth, nor depends on the order of a dict; dicts are shown one item below the other in key order, one-line items first, and lists and tuples on one line if all their values are and it has at most 60 characters, at every depth.", "quantifier": "all values, masks and representations of single values", "why_tests_cant": "hiding is a statement about pairs of inputs", "anchors": ["scheme/util.py: StructureFormatter, format_structure"]}
{"id": "C79", "title": "Error messages", "statement": "Every error that a field reports carries a message that can be built: it begins with the name of the field (unknown-field without one; an import error names the text) and states the bound, length, values or key concerned, and every error nested in the error of a run comes from a field of the schema and has such a message.", "quantifier": "all schemas, values and names", "why_tests_cant": "every combination of class, parameter and token", "anchors": ["scheme/field.py: FieldError, FieldMeta, Field.errors", "scheme/exceptions.py: ValidationError.construct", "scheme/fields/*.py: errors"]}
{"id": "C80", "title": "Fields through JSON", "statement": "For every schema of types JSON can carry and every conforming value, field.serialize(value, \"json\") gives a printable text and field.unserialize of that text gives exactly the value; likewise field.write and field.read of a .json file; a value whose serialized form JSON does not know (bytes) is a TypeError.", "quantifier": "all schemas, values of any depth, environments and file systems", "why_tests_cant": "unbounded schemas and values, every combination of key class and container", "anchors": ["scheme/field.py: Field.serialize, Field.unserialize, Field.read, Field.write", "scheme/formats/json.py: Json", "scheme/fields/*.py: process"]}
{"id": "C81", "title": "Constructors store what they are given", "statement": "The constructor of each class stores its parameters as given, or as read from the textual forms it accepts; the common parameters are stored in the same way for every class, remaining non-null keyword arguments become aspects, and instantiators and extractors are imported by name and replaced by their special attribute. Structures are covered by C52.", "quantifier": "all classes and all keyword arguments", "why_tests_cant": "every combination of parameters and forms", "anchors": ["scheme/field.py: Field.__init__", "scheme/fields/*.py: __init__"]}
{"id": "C82", "title": "Reconstruction picks the class named", "statement": "Field.reconstruct returns a field as it is, makes a field without arguments from the name of a class, makes from a dict a field of the class named by its fieldtype with the other entries as arguments (nested specifications replaced by their fields), and refuses every other value with ValueError.", "quantifier": "all specifications of any depth", "why_tests_cant": "unbounded nesting and all classes", "anchors": ["scheme/field.py: FieldMeta.reconstruct, Field._construct_parameter, Field.construct"]}
{"id": "C83", "title": "Importing by name", "statement": "import_object of a dotted path returns the object reached from the module of the longest importable part of the path by following the remaining names as attributes; with a colon the module is the part before it; a single name is a module; whatever else happens is an ImportError and nothing but an ImportError.", "quantifier": "all paths, all states of the import system", "why_tests_cant": "all paths and all module states", "anchors": ["scheme/util.py: import_object"]}
{"id": "C84", "title": "Identify then import", "statement": "Importing the name that identify_object gives for an object returns that object.", "quantifier": "all objects and states of the import system", "why_tests_cant": "all module states", "anchors": ["scheme/util.py: identify_object, import_object", "scheme/fields/object.py: Object"]}
{"id": "C85", "title": "Rendered directives nest", "statement": "Rendering a documentation directive gives its own line at the indentation asked for followed by lines that are empty or indented by at least four more blanks, at any depth of nesting, and keeps every parameter with all lines of its value and every directive or text of the content.", "quantifier": "all directives of any depth, values with line breaks included", "why_tests_cant": "unbounded nesting and all texts", "anchors": ["scheme/doc/generator.py: directive.render"]}
{"id": "C86", "title": "Documentation of the common attributes", "statement": "The documentation of a description is a directive field with the given name that tells type, description, notes, flags, constant, default and title exactly if the description has them, and nothing else under these names.", "quantifier": "all descriptions, roles and key types", "why_tests_cant": "every combination of attributes", "anchors": ["scheme/doc/generator.py: DocumentationGenerator._document_field"]}
{"id": "C87", "title": "Documentation of constraints", "statement": "The documentation of a bounded field states its minimum as min= and its maximum as max= (lengths and patterns of texts, lengths and uniqueness of sequences likewise), exactly as its description has them.", "quantifier": "all descriptions, roles and bounds", "why_tests_cant": "every combination of class and bounds", "anchors": ["scheme/doc/generator.py: _describe_date, _describe_datetime, _describe_decimal, _describe_float, _describe_integer, _describe_sequence, _describe_text, _describe_time"]}
{"id": "C88", "title": "Every described field can be documented", "statement": "Whatever describe returns can be documented; the documentation contains the documentation of every nested field, the sorted values of an enumeration and the required keys and types of a map.", "quantifier": "all field trees", "why_tests_cant": "unbounded nesting", "anchors": ["scheme/doc/generator.py: _describe_enumeration, _describe_map, _describe_sequence, _describe_structure, _describe_tuple, _describe_union, _document_field", "scheme/field.py: Field.describe"]}
{"id": "C89", "title": "repr of fields", "statement": "Every field has a repr: the name of its class and, in parentheses, its name, the parameters of its class, its constant, default, flags and title, each once and exactly if set, fields within it shown by their own repr.", "quantifier": "all field trees", "why_tests_cant": "every combination of parameters, unbounded nesting", "anchors": ["scheme/field.py: Field.__repr__", "scheme/fields/*.py: __repr__"]}
{"id": "C90", "title": "Names of time zones", "statement": "A zone of a fixed offset without a name is called by its offset: the sign and two digits for the hours, and two for the minutes if there are any; different offsets have different names; a zone with a name is called by it.", "quantifier": "all offsets", "why_tests_cant": "all integers", "anchors": ["scheme/timezone.py: FixedOffsetTimezone"]}
{"id": "C91", "title": "Equality of values", "statement": "Constants, members and ignored values of enumerations and the items of unique sequences are compared as follows: numbers of any type by the exact number they stand for (NaN equals nothing), texts, bytes, dates and times by identity, datetimes by the instant (by the wall clock within one zone, never between a naive and an aware one), lists and tuples item by item, dicts regardless of order, null and other objects only with themselves.", "quantifier": "all pairs of values of any depth", "why_tests_cant": "all pairs of values across types", "anchors": ["scheme/field.py: Field.process", "scheme/fields/enumeration.py: Enumeration._validate_value", "scheme/fields/sequence.py: Sequence.process"]}
{"id": "C92", "title": "Reported errors fit the field Errors", "statement": "The serialization of every error a field reports is accepted unchanged by the field Errors of scheme.common, which refuses every other value but null and pairs of a list of dicts of texts and anything.", "quantifier": "all errors and values", "why_tests_cant": "every error of every schema, of any depth", "anchors": ["scheme/common.py: Errors", "scheme/exceptions.py: StructuralError.serialize, ValidationError.construct"]}
{"id": "C93", "title": "Recursive schemas end", "statement": "Processing any value with a schema that refers to itself through placeholders ends with a value or an error, after a recursion no deeper than in proportion to the nesting of the value.", "quantifier": "all recursive schemas, all values of any depth", "why_tests_cant": "unbounded recursion: a test only ever sees one depth", "anchors": ["scheme/field.py: Undefined", "scheme/fields/structure.py: Structure.process", "scheme/fields/sequence.py, map.py, tuple.py, union.py: process"]}
{"id": "C94", "title": "Written documentation is accepted", "statement": "Every directive the documentation generator writes for a description, at any depth, is accepted by the Sphinx directive field: its options are known to it, none is given twice, and flags carry no text.", "quantifier": "all descriptions, roles and key types, all depths", "why_tests_cant": "every combination of attributes, unbounded nesting; needs Sphinx to run", "anchors": ["scheme/doc/generator.py: DocumentationGenerator._document_field", "scheme/doc/domain.py: FieldDefinition.option_spec"]}
{"id": "C95", "title": "The Sphinx directives show what they are given", "statement": "The directive field shows its name, the text of each of its options, its flags and all nested content, in a fixed order; the directive structure shows its argument and its content.", "quantifier": "all options, names and contents", "why_tests_cant": "every combination of options", "anchors": ["scheme/doc/domain.py: FieldDefinition.run, StructureDefinition.run, aspect_block"]}
{"id": "C96", "title": "Floats are correctly rounded", "statement": "A Float field that unserializes a number - an integer, a decimal or the text of a decimal number of any length - gives the float nearest to it, on a tie the one with an even significand, subnormal floats included; decimals and texts too large for every float give an infinity of their sign, integers are refused.", "quantifier": "all integers, decimals and decimal texts", "why_tests_cant": "the nearest float to an arbitrary decimal is a statement about all floats and exact numbers of any length", "anchors": ["scheme/fields/float.py: Float._unserialize_value"]}
{"id": "C97", "title": "Elements and surrogates show what identifies them", "statement": "The repr of every element names its class and shows exactly those of its attributes id, name and title that are not null, in this order; the repr of every surrogate is the token of its class around its contents.", "quantifier": "all elements, attributes, classes and values; all surrogates", "why_tests_cant": "every combination of attributes on objects and classes", "anchors": ["scheme/element.py: Element.__repr__", "scheme/surrogate.py: surrogate.__repr__"]}
{"id": "C98", "title": "Access to child fields", "statement": "get returns the child field that a key identifies: in a Tuple by its position, in a Structure by its name, the default if there is none; fields without keyed children raise TypeError.", "quantifier": "all fields, keys and defaults", "why_tests_cant": "all keys of all types and all fields", "anchors": ["scheme/field.py: Field.get", "scheme/fields/tuple.py: Tuple.get", "scheme/fields/structure.py: Structure.get"]}
{"id": "C99", "title": "Placeholders are replaced by their definitions", "statement": "Once a placeholder is defined, every field that was given it, whether constructed before or after, holds the definition at exactly the positions where the placeholder was given; nothing else is changed.", "quantifier": "all sequences of constructions and definitions, with any number of placeholders and positions", "why_tests_cant": "unbounded histories of shared mutable objects", "anchors": ["scheme/field.py: Undefined.define, Undefined.register", "scheme/fields/tuple.py: Tuple._define_undefined_field", "scheme/fields/structure.py: Structure._define_undefined_field"]}

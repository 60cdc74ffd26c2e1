{
 "C08": {
  "note": "REFUTED as documented: binascii.Error escapes on malformed base64; the partial theorem characterises when.",
  "status": "partial"
 },
 "C11": {
  "note": "REFUTED as stated for DateTime(utc=False) fields when the local zone has daylight saving time (the LocalTimezone tzinfo misjudges UTC values around a change); proved for UTC fields, for naive and local values, and for zones without daylight saving",
  "status": "partial"
 },
 "C18": {
  "note": "Proved for all non structural fields but Enumeration, for which it is REFUTED: a violated constant raises KeyError.",
  "status": "partial"
 },
 "C22": {
  "note": "REFUTED: keys normalised by a key field may collide, which loses entries and may hide the failure of a value; proved for maps without a key field.",
  "status": "partial"
 },
 "C27": {
  "note": "REFUTED: a null for an ignore_null field is dropped without applying the default or enforcing required; proved equal to absence for optional fields without default.",
  "status": "partial"
 },
 "C32": {
  "note": "REFUTED as stated: a Union stops at the first alternative that rejects for another reason than type (process_complete_refuted). Proved for all schemas without preprocessors, ignored nulls, constants on normalising fields, and unions of which an earlier alternative may stand in the way of a later one; conforming dicts list their entries in the order of the schema (process_complete_partial); for any other order the same value is returned (process_complete_reordered_partial, order_irrelevant). Email fields that are not extended are covered under [lowers]: what lower-casing gives above ASCII is lower case and no separator.",
  "status": "partial"
 },
 "C33": {
  "note": "REFUTED as stated: a constant on a Text field that strips (process_idempotent_refuted). Proved for all schemas as in C32 (process_idempotent_partial), so also for unions whose alternatives do not stand in each other's way; Email fields as in C32.",
  "status": "partial"
 },
 "C34": {
  "note": "Proved for all schemas of round-trippable classes (no Error; Surrogates inside values and inside the contents of other surrogates, to any depth, if their classes are identified by tokens and their schemas are structures without the reserved keys; unions whose alternatives can be told apart by the types they take), without preprocessors, and all values whose serialized form is faithful; for other unions, values that earlier alternatives refuse natively and serialized; for Definition fields up to documentation. REFUTED without these exclusions: microseconds are dropped, two NaNs of a unique sequence serialize alike, a date in a union after a text comes back as a text, errors come back as other errors.",
  "status": "partial"
 },
 "C35": {
  "note": "REFUTED as stated for missing and unknown keys, which are reported under the path of their container (error_locations_refuted); everything else proved (error_locations_partial).",
  "status": "partial"
 },
 "C36": {
  "note": "REFUTED as stated (unique sequence of unhashable items raises TypeError). Proved: where an escaping exception can come from, that tame schemas never let any escape, and for each class (for surrogates: natively, inbound and outbound) exactly which exceptions escape from it without preprocessor over tame subfields and schemas.",
  "status": "partial"
 },
 "C43": {
  "note": "REFUTED in full: DateTime bounds in local time change, empty defaults of structural fields are lost, structures with a field named fieldtype cannot be rebuilt, and unpadded years break. Proved for all describable fields (which excludes exactly these).",
  "status": "partial"
 },
 "C44": {
  "note": "REFUTED: reconstruct pops 'fieldtype' from the caller's dict, also from nested ones (reconstruct_refuted). Proved instead: nothing but 'fieldtype' entries is removed, and a second use raises ValueError.",
  "status": "partial"
 },
 "C45": {
  "note": "REFUTED in general: a field made with errors of its own raises AttributeError when cloned (clone_errors_refuted), a DateTime bound that is a skipped local wall time moves when cloned, and a field with an unresolved placeholder cannot be cloned. Proved for all other fields and for replaced parameters that are not fields. That the original is unchanged holds by construction, since fields are values in the model (clone builds a new object, field.py:248-263).",
  "status": "partial"
 },
 "C46": {
  "note": "REFUTED in two cases: a structure (or variant of a polymorphic one) none of whose fields is selected is returned unchanged (C46_filter_empty_refuted); children of structures are tested in all mode even when any was asked for (C46_filter_any_refuted). Proved otherwise, polymorphic structures included.",
  "status": "partial"
 },
 "C47": {
  "note": "REFUTED for polymorphic structures: AttributeError (C47_transform_polymorphic_refuted). Proved for all other trees.",
  "status": "partial"
 },
 "C49": {
  "note": "REFUTED for 'the original structure is unchanged' when the argument shares a field with the structure (C49_extend_aliasing_refuted); otherwise proved, with an explicit heap of field objects.",
  "status": "partial"
 },
 "C53": {
  "note": "REFUTED for unions: extracting with Union(Structure a, Structure b) takes the first structure and loses the entries of the second (extract_union_refuted). Proved otherwise; the identity on conforming values excludes unions, key orders and polymorphic identities that are falsy.",
  "status": "partial"
 },
 "C54": {
  "note": "REFUTED for unions: Union.instantiate takes no key and raises (instantiate_union_refuted). Proved for all other classes; the identity on conforming values excludes unions and key orders.",
  "status": "partial"
 },
 "C56": {
  "note": "REFUTED for unions: Union.interpolate refers to an undefined name and always fails (union_interpolate_fails, interpolate_union_refuted); Field, Object and Error fields refuse values that are not strings. Proved otherwise. jinja2's evaluation and rendering are uninterpreted functions.",
  "status": "partial"
 },
 "C60": {
  "note": "REFUTED: ['a,b'] and ['a','b'], [''] and [], 'true' and True, 1 and '1' have one text, and a text with brackets beside a list is not read back at all (structuredtext_texts_refuted); single texts are preserved (structuredtext_single_text_partial).",
  "status": "partial"
 },
 "C65": {
  "note": "REFUTED for extensions registered with capitals (extension_case_refuted): the extension of the path is lower-cased before the lookup, that of the format is not. Otherwise proved in full.",
  "status": "partial"
 },
 "C66": {
  "note": "REFUTED for CSV files under Python 3 (csv_file_refuted, csv_files_unreadable: text mode turns the line ends into \\n, Csv.unserialize splits at \\r\\n). Proved in full for the general case, relative to line end translation, and for JSON files. yaml.load is a parameter.",
  "status": "partial"
 },
 "C71": {
  "note": "REFUTED for null entries (element_round_trip_refuted: they are dropped by extraction) and for absent keys with a constant (element_absent_constant_refuted: the constant appears). Proved without those and without unions, for elements at any depth, plain and polymorphic; instances, subclasses and definition errors exactly.",
  "status": "partial"
 },
 "C72": {
  "note": "REFUTED as stated: under Python 3 the metaclass of surrogate is ignored, so a class has no attribute 'surrogate' unless it defines one, and serialization is then an AttributeError; a surrogate given where a serialized one is expected loses its class, schema and version. Proved: the round trips of versioned, dynamic and bare surrogates of classes with the attribute, whose schemas are structures without the reserved keys; exact unserialization, refusals, construction and acquisition.",
  "status": "partial"
 },
 "C79": {
  "note": "REFUTED: the message for a surrogate outside the valid ones cannot be built (KeyError), and the message about a DateTime bound shows local time with 'Z'. Proved for every other token and field class, for errors given to constructors, and for the formatting of templates in general.",
  "status": "partial"
 },
 "C80": {
  "note": "REFUTED without exclusions: Binary values cannot be written as JSON, Error fields cannot read what they wrote, null keys become the text 'null'. Proved for all other schemas and values ([faithful], [json_faithful]), surrogates included at any depth ([mailable]: classes identified by tokens, schemas that are structures without the reserved keys); unions whose alternatives cannot be told apart by type are not covered.",
  "status": "partial"
 },
 "C84": {
  "note": "REFUTED: classes of the main module have names that cannot be imported, and a module with the name of a class hides it. Proved for objects at home in their module.",
  "status": "partial"
 },
 "C87": {
  "note": "REFUTED: the maximum of a decimal is labelled min=, and the bounds of dates, times and datetimes never appear. Proved exactly for integers, floats, texts and sequences; what is shown instead is proved for the others.",
  "status": "partial"
 },
 "C88": {
  "note": "REFUTED: no structure with fields (AttributeError) and no union (NameError) can be documented. Proved for all other trees whose enumerations and required keys are texts.",
  "status": "partial"
 },
 "C89": {
  "note": "REFUTED: '%r' % default raises TypeError when the default (or title) is a tuple of other than one value, as for a Tuple field with a default (repr_refuted); proved: exactly then (repr_exists_partial), and what repr says when there is one.",
  "status": "partial"
 },
 "C90": {
  "note": "REFUTED: negative offsets that are no whole hours and minutes below ten are misnamed (zone_named_refuted); proved: usual name exactly otherwise, names are distinct.",
  "status": "partial"
 },
 "C92": {
  "note": "REFUTED: the message of an error loses blanks around it, which the name of the field may put there. Proved: the field accepts exactly null and pairs of null or a list of (null or dicts of texts under texts) and anything, and strips the texts; errors whose texts have no blanks around them come back unchanged, and only messages may have such.",
  "status": "partial"
 },
 "C93": {
  "note": "REFUTED in general: a Union whose alternative stands for itself, a recursive default, or a surrogate for default in the schema of its own class recurses forever (C93_recursion_ends_refuted, C93_surrogate_recursion_refuted). Proved for all schemas without such Unions and defaults and without preprocessors on containers; surrogates included, if their schemas are no Unions or Surrogates themselves.",
  "status": "partial"
 },
 "C94": {
  "note": "REFUTED: documentation of a field with notes is refused, since the directive has no option notes; everything else the generator writes is accepted",
  "status": "partial"
 },
 "C95": {
  "note": "REFUTED: the option example is accepted and never shown; every other option, the flags, the name and the content are shown, exactly",
  "status": "partial"
 },
 "C97": {
  "note": "REFUTED for surrogates: a class has no attribute 'surrogate' under Python 3 unless it defines one, and repr is then an AttributeError. Proved exactly: the text of every element, of elements made from structures, and of every surrogate whose class has the attribute.",
  "status": "partial"
 },
 "C98": {
  "note": "REFUTED for polymorphic Structures: their get gives the dict of fields of a variant, no child field (get_polymorphic_refuted, get_variant). Proved for every other field. Slices and objects with __index__ as keys of a Tuple are not modelled.",
  "status": "partial"
 },
 "C99": {
  "note": "REFUTED for a placeholder that is defined again (define_again_refuted): fields constructed between the two definitions keep the first. What every container holds is proved exactly for all sequences of constructions and definitions (define_exact), and for placeholders defined once the claim itself (define_everywhere_partial).",
  "status": "partial"
 }
}
# Formal model of jordanm/scheme in Rocq — design

The target is the Python package in `/repo/scheme` (read as text, never run).  The model is a
shallow, branch-by-branch Gallina transcription of the functions cited in each definition's
comment; Python exceptions are values of a result type.  Semantics assumed: CPython 3 (about 3.8),
i.e. `str`/`bytes` distinct, insertion ordered dicts, `basestring` absent (`scheme.util.string = str`).

`properties.jsonl` lists the claims, `MANIFEST.json` the theorems and the status of each claim.  A claim
that is false as documented has status *partial*: a theorem `…_refuted` gives the witness and the theorems
beside it say exactly what does hold.

## Files of `rocq/theories`

Model (definitions only, each citing the lines it models):

| file | code |
|------|------|
| `PyBase` | results (`Ok` / `Raise`), Python exceptions, code-point strings (`str = list N`), association lists |
| `NumText`, `Calendar`, `Base64`, `Regex` | the parts of the standard library the fields rely on: `int()`, `float()`, `Decimal()` and their `str`, `datetime` / `strptime` / `strftime` / time zones (`scheme/timezone.py`), `base64`, `re` on the fixed patterns |
| `PyVal` | Python values, structural errors and fields (mutually inductive: a Definition field has fields as values and fields have defaults); equality, truth, hashability |
| `Env` | everything the code receives from outside, as a record over which every theorem quantifies: user callables, compiled user patterns, `import_object`, surrogate implementations, the local time zone, Unicode tables above ASCII, what each `Undefined` was defined as |
| `Process` | `Field.process` and the `process` of all 22 field classes |
| `Util`, `Fmt` | `scheme/util.py`, `StructureFormatter`; the stateful part of `scheme/exceptions.py` |
| `Construct` | all constructors, `construct`, `reconstruct`, `describe`, `clone` |
| `Schema` | `filter`, `screen`, `transform`, `extend`, `replace`, `insert`, `remove`, `merge`, `generate_defaults`, `has_required_fields`, `redefine`, `visit`, `get` |
| `Extract` | `extract`, `instantiate`, `interpolate`, `scheme/interpolation.py` |
| `StText`, `UrlText`, `CsvText`, `XmlText`, `JsonText`, `YamlText` | `scheme/formats/*.py` with the library parts they call (`csv`, `xml.etree`, `json`, `quote`/`unquote`) down to characters |
| `Io` | `scheme/format.py`, `Field.read/write/serialize/unserialize`, files as a finite map |
| `Element`, `Surrogate`, `ObjRepr` | `scheme/element.py`, `scheme/surrogate.py` |
| `Mod` | `import_object` and `identify_object` over an arbitrary state of the import system |
| `Doc` | `directive.render` and `DocumentationGenerator._document_field` with all `_describe_*` methods over descriptions |
| `Msg` | `FieldError`, the tables of messages of all classes, `ValidationError.construct` |
| `Repr` | `Field.__repr__` of all classes, `FixedOffsetTimezone` |
| `Common` | `scheme/common.py` |
| `Define` | `Undefined.define`, `register`, the callbacks `_define_undefined_field` and the loops of constructors that register them, on a heap of containers |
| `Access` | `get` of all fields; `StructuralError.__str__`, `substantive` |

Specifications: `Spec` and the files `*Spec` — vocabulary written without the model's helpers.  `Demo` — the
concrete environment and fields of the examples.  Proofs: `*Facts`, `*Proofs`.  `Props_*` — the property
theorems and nothing else, each closed by `exact`, followed by `Print Assumptions` and by an example that
meets its hypotheses.  `tools/mkprops.py` generates `Props_*`, `_CoqProject` and `MANIFEST.json` from the
`@prop` markers of the proof files.

`process` is structural on the field tree; a resolved placeholder costs one unit of fuel and running out of
fuel is `RecursionError` (as in Python).  Theorems hold for every fuel; `C38_outcome_unique` says that the fuel
does not change any outcome but that one.

## Properties: what is modelled, how it is proved

| id | how |
|----|-----|
| C01 | `Process`; cases over the field classes |
| C02, C03 | `Process`, `NumText`; exact acceptance; numeral round trip by induction on digits |
| C04 | floats as `SpecFloat.spec_float`; NaN accepted by bounds is stated |
| C05 | decimals as sign, coefficient, exponent; text round trip by induction on numerals |
| C06 | `Process`; strip lemmas by list induction |
| C07, C08 | `Base64`; induction over bytes in threes; C08 refuted and characterised |
| C09, C10 | `Calendar`; list-of-successes model of `_strptime`; texts related to dates by an independent grammar |
| C11, C12 | `Calendar` ordinals and `astimezone`; arithmetic over the 400 year cycle; C11 refuted for local fields with DST |
| C13, C14 | `Process`; cases |
| C15–C17 | `Regex`: derivative matcher proved equal to the language, then to a grammar on splits |
| C18 | `Process`; refuted for Enumeration (KeyError) |
| C19–C23 | induction over the items against a relational specification; C22 refuted (keys collide); C21 also for the order of the entries (`MapOrderProofs`) |
| C24–C29 | induction over the definition of the structure; C27 refuted |
| C30 | induction over the alternatives |
| C31–C34 | induction over the schema and fuel against `conforms`; C32–C34 refuted in corner cases and proved outside of them, unions included whose alternatives can be told apart by the type of the value; C32 also up to the order of the entries of dicts, by a relation between the runs on values that differ in it, which covers the reports of errors at any depth (`OrderProofs`), and C34 for serialized forms whose entries come back in another order (`ReorderProofs`, C80 likewise for texts of JSON); C34 also with surrogates nested to any depth (`SurrogateProofs`) |
| C35–C37 | induction over the schema: paths, tokens, exceptions that may escape (`EscSpec`: the list for each class, each item with a witness), reasons |
| C38 | fuel monotonicity by induction; a placeholder behaves as what it was defined as |
| C39–C42 | induction over error trees, over histories of calls for the cache |
| C43 | `Construct`: description of a constructed field followed by reconstruction gives the field; four refutations |
| C44 | `reconstruct_st` returns the argument after the call; refuted (it is consumed), effect characterised |
| C45 | `clone` through `construct`; refuted for DST bounds, placeholders and fields with errors of their own |
| C46–C48 | `Schema`; induction over the tree; C46, C47 refuted in corner cases |
| C49 | explicit heap of field objects, since the code assigns to shared fields; aliasing refuted |
| C50, C51, C73, C76, C77 | `Schema`; exact results |
| C52 | which arguments each constructor accepts; Structures, polymorphic ones included |
| C53–C56 | `Extract`; exact equations per class and identities on conforming values; refuted for unions |
| C57 | `scheme/interpolation.py`; the scan for references against a grammar |
| C58–C60 | the reduction loop of structured text as string rewriting with a measure; C60 refuted |
| C61–C64, C74 | one file per format, down to characters; round trips by induction over values; JSON and XML (names in ASCII, no name spaces, comments, CDATA sections, processing instructions or document types) also against inductive grammars, both directions |
| C62 | YAML writer: block structure, injectivity, and texts of one line against the rules of YAML for plain and quoted scalars (stated in `YamlSpec`); long texts up to `TextWrapper.wrap`; `yaml.load` is a library and not modelled |
| C65–C67 | registry and files: which format is taken, what is in the file after success and after each failure |
| C68–C70, C78 | `Util`, `Fmt` |
| C71, C72 | `Element`, `Surrogate`: round trips; refuted in corner cases |
| C75 | conversions of inbound values |
| C79 | message tables: every reported error has a text; refuted in two cases; templates filled exactly as specified, custom errors |
| C80 | composition of C34 and C74: fields through JSON texts and files; unions whose alternatives can be told apart in JSON; surrogates nested to any depth by induction over the nesting (`MailProofs`) |
| C81, C82 | exact results of constructors and of reconstruction against relations on arguments |
| C83, C84 | `Mod`; induction over the names of a path against relations on the state of the import system; C84 refuted for the main module and hidden names, proved for objects at home in their module |
| C85, C86 | `Doc`; induction over directives for all texts and depths (`textwrap.wrap` is a parameter with what it guarantees); an exact list of the parameters of a document |
| C87 | exact lists of constraints per class; refuted for decimals (maximum labelled min=) and dates, times, datetimes (bounds are texts in a description and never shown) |
| C88 | induction over descriptions of arbitrary depth; refuted: no structure with fields and no union can be documented; proved for everything else |
| C89 | repr of fields: case analysis per class and induction over field trees; refuted for tuple defaults, exact condition proved |
| C90 | zone names: integer arithmetic on offsets; refuted for negative part hours and minutes below ten, exact condition proved |
| C91 | `veq` of `PyVal`, used by the other claims as equality, against an inductive relation on values (exact numbers, instants, contents); induction over values |
| C92 | `Common` and `Process`; exact acceptance by the field Errors through the theorems on tuples, sequences and maps; refuted for messages with blanks around them |
| C93 | `Process`; induction on fuel and field with a bound of (ranks + 1) × (depth + 1), surrogates with the schemas met in the value included; refuted for Unions that stand for themselves and for defaults that bring themselves along, through placeholders or surrogates; preprocessors of containers are left out |
| C94 | `Domain.read_options` (what docutils does with options) after `Doc.document`; induction on the description with an invariant on the parameters added; refuted for fields with notes, which the directive does not know |
| C95 | `Domain` (nodes of docutils as trees of texts); exact words of the signature and of the block; refuted for examples, which are accepted and never shown |
| C96 | `NumText.float_of_scaled` and `float_of_Z` (the standard library's SpecFloat operations, with a sticky bit for the quotient); proved against a specification of rounding that compares with every float (`RoundSpec.rounded`); texts without underscores and of ASCII digits |
| C97 | `ObjRepr`; induction over the attributes shown; composed with C71 for elements made from structures; refuted for surrogates of classes without the attribute `surrogate` |
| C98 | `Access`; by cases on the field and the key; refuted for polymorphic Structures, whose `get` gives a dict of fields |
| C99 | `Define`; an invariant over all sequences of constructions and definitions, from which what each container holds follows exactly; refuted for placeholders that are defined again |

## Not modelled

* what Sphinx and docutils do with the text and the nodes (`scheme/doc/domain.py` is modelled from the options on), `print`/logging.
* jinja2 (evaluation of expressions and rendering of templates are functions of `Env`), `yaml.load`,
  `textwrap` (a function), `repr` of arbitrary objects (a function).
* Code that is never called (`Yaml._is_literal_text`, `format_value` of `scheme/doc/domain.py`), `with_metaclass`,
  `current_timestamp`, the settings of the jinja2 environment.
* Conversions of `%` formatting with flags, widths or other letters in custom messages, Python 2 branches.
* The import system itself (`__import__`, `inspect.getmodule`: functions of the record `modules`; the fields see
  `import_object` / `identify_object` through `Env`), metaclass side effects other
  than the registry of classes.
* Memory, recursion limits other than fuel, concurrency, signals; file errors other than a missing file and a
  failure while writing.
* Objects are numbers with attributes: user classes have no `__eq__`, `__hash__`, `__bool__` of their own.
* Time zone offsets of a day or more (Python refuses them), leap seconds.
* Where a function meets values outside the model it returns the exception `outside` (`OtherError 0`), never a success; the
  comments say where.

## Trusted base

* The Coq 8.16.1 kernel (and `coqchk`).
* The reading of the Python source and of the CPython library behaviour recorded in the comments of the model.
* Axioms: none are added, and `Print Assumptions` prints, for **every** theorem of `MANIFEST.json`,
  `Closed under the global context`: no axiom, of the standard library or other, is used anywhere.

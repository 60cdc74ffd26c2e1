PyBase
PyBaseFacts
NumText
Calendar
Base64
Regex
PyVal
Env
Process
Induct
ProcessFacts
NumFacts
Spec
Demo
ScalarProofs
NumProofs
B64Proofs
StructFacts
SeqProofs
MapProofs
StructProofs
RegexSpec
RegexProofs
ConfProofs
LocProofs
EscSpec
EscapeProofs
CalSpec
CalFacts
CalText
CalProofs
UndefSpec
UndefProofs
RtSpec
RtProofs
Util
ErrSpec
ErrProofs
UtilSpec
UtilProofs
Construct
ConSpec
ConFacts
CloneFacts
ConProofs
Schema
SchemaFacts
SchemaSpec
SchemaProofs
Extract
ExtractSpec
ExtractProofs
InterpProofs
StText
StSpec
StProofs
UrlText
UrlSpec
UrlProofs
CsvText
CsvSpec
CsvProofs
XmlText
XmlSpec
XmlProofs
JsonText
JsonSpec
JsonProofs
JsonGramSpec
JsonGramProofs
TextMoreSpec
TextMoreProofs
YamlText
YamlSpec
YamlProofs
Io
IoSpec
IoProofs
Element
ElementSpec
ElementProofs
Surrogate
SurrogateSpec
SurrogateProofs
InSpec
InProofs
DescSpec
DescFacts
DescProofs
BuildSpec
BuildProofs
ReqSpec
ReqProofs
Fmt
FmtSpec
FmtProofs
Msg
MsgSpec
MsgProofs
CarrySpec
CarryProofs
InitSpec
InitProofs
Mod
ModSpec
ModProofs
Doc
DocSpec
DocProofs
Repr
ReprSpec
ReprProofs
EqSpec
EqProofs
Common
CommonSpec
CommonProofs
TermSpec
TermProofs
Domain
DomainSpec
DomainProofs
RoundSpec
RoundProofs
XmlGramSpec
XmlGramProofs
ObjRepr
ObjReprSpec
ObjReprProofs
UnderSpec
UnderProofs
Access
AccessSpec
AccessProofs
MailSpec
MailProofs
OrderSpec
OrderProofs
Define
DefineSpec
DefineProofs
ReorderProofs
MapOrderProofs

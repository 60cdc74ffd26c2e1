-Q theories Verif
theories/PyBase.v
theories/PyBaseFacts.v
theories/NumText.v
theories/Calendar.v
theories/Base64.v
theories/Regex.v
theories/PyVal.v
theories/Env.v
theories/Process.v
theories/Induct.v
theories/ProcessFacts.v
theories/NumFacts.v
theories/Spec.v
theories/Demo.v
theories/ScalarProofs.v
theories/Props_Scalar.v
theories/NumProofs.v
theories/Props_Num.v
theories/B64Proofs.v
theories/Props_B64.v
theories/StructFacts.v
theories/SeqProofs.v
theories/Props_Seq.v
theories/MapProofs.v
theories/Props_Map.v
theories/StructProofs.v
theories/Props_Struct.v
theories/RegexSpec.v
theories/RegexProofs.v
theories/Props_Regex.v
theories/ConfProofs.v
theories/Props_Conf.v
theories/LocProofs.v
theories/Props_Loc.v
theories/EscSpec.v
theories/EscapeProofs.v
theories/Props_Escape.v
theories/CalSpec.v
theories/CalFacts.v
theories/CalText.v
theories/CalProofs.v
theories/Props_Cal.v
theories/UndefSpec.v
theories/UndefProofs.v
theories/Props_Undef.v
theories/RtSpec.v
theories/RtProofs.v
theories/Props_Rt.v
theories/Util.v
theories/ErrSpec.v
theories/ErrProofs.v
theories/Props_Err.v
theories/UtilSpec.v
theories/UtilProofs.v
theories/Props_Util.v
theories/Construct.v
theories/ConSpec.v
theories/ConFacts.v
theories/CloneFacts.v
theories/ConProofs.v
theories/Props_Con.v
theories/Schema.v
theories/SchemaFacts.v
theories/SchemaSpec.v
theories/SchemaProofs.v
theories/Props_Schema.v
theories/Extract.v
theories/ExtractSpec.v
theories/ExtractProofs.v
theories/Props_Extract.v
theories/InterpProofs.v
theories/Props_Interp.v
theories/StText.v
theories/StSpec.v
theories/StProofs.v
theories/Props_St.v
theories/UrlText.v
theories/UrlSpec.v
theories/UrlProofs.v
theories/Props_Url.v
theories/CsvText.v
theories/CsvSpec.v
theories/CsvProofs.v
theories/Props_Csv.v
theories/XmlText.v
theories/XmlSpec.v
theories/XmlProofs.v
theories/Props_Xml.v
theories/JsonText.v
theories/JsonSpec.v
theories/JsonProofs.v
theories/Props_Json.v
theories/JsonGramSpec.v
theories/JsonGramProofs.v
theories/Props_JsonGram.v
theories/TextMoreSpec.v
theories/TextMoreProofs.v
theories/Props_TextMore.v
theories/YamlText.v
theories/YamlSpec.v
theories/YamlProofs.v
theories/Props_Yaml.v
theories/Io.v
theories/IoSpec.v
theories/IoProofs.v
theories/Props_Io.v
theories/Element.v
theories/ElementSpec.v
theories/ElementProofs.v
theories/Props_Element.v
theories/Surrogate.v
theories/SurrogateSpec.v
theories/SurrogateProofs.v
theories/Props_Surrogate.v
theories/InSpec.v
theories/InProofs.v
theories/Props_In.v
theories/DescSpec.v
theories/DescFacts.v
theories/DescProofs.v
theories/Props_Desc.v
theories/BuildSpec.v
theories/BuildProofs.v
theories/Props_Build.v
theories/ReqSpec.v
theories/ReqProofs.v
theories/Props_Req.v
theories/Fmt.v
theories/FmtSpec.v
theories/FmtProofs.v
theories/Props_Fmt.v
theories/Msg.v
theories/MsgSpec.v
theories/MsgProofs.v
theories/Props_Msg.v
theories/CarrySpec.v
theories/CarryProofs.v
theories/Props_Carry.v
theories/InitSpec.v
theories/InitProofs.v
theories/Props_Init.v
theories/Mod.v
theories/ModSpec.v
theories/ModProofs.v
theories/Props_Mod.v
theories/Doc.v
theories/DocSpec.v
theories/DocProofs.v
theories/Props_Doc.v
theories/Repr.v
theories/ReprSpec.v
theories/ReprProofs.v
theories/Props_Repr.v
theories/EqSpec.v
theories/EqProofs.v
theories/Props_Eq.v
theories/Common.v
theories/CommonSpec.v
theories/CommonProofs.v
theories/Props_Common.v
theories/TermSpec.v
theories/TermProofs.v
theories/Props_Term.v
theories/Domain.v
theories/DomainSpec.v
theories/DomainProofs.v
theories/Props_Domain.v
theories/RoundSpec.v
theories/RoundProofs.v
theories/Props_Round.v
theories/XmlGramSpec.v
theories/XmlGramProofs.v
theories/Props_XmlGram.v
theories/ObjRepr.v
theories/ObjReprSpec.v
theories/ObjReprProofs.v
theories/Props_ObjRepr.v
theories/UnderSpec.v
theories/UnderProofs.v
theories/Props_Under.v
theories/Access.v
theories/AccessSpec.v
theories/AccessProofs.v
theories/Props_Access.v
theories/MailSpec.v
theories/MailProofs.v
theories/Props_Mail.v
theories/OrderSpec.v
theories/OrderProofs.v
theories/Props_Order.v
theories/Define.v
theories/DefineSpec.v
theories/DefineProofs.v
theories/Props_Define.v
theories/ReorderProofs.v
theories/Props_Reorder.v
theories/MapOrderProofs.v
theories/Props_MapOrder.v

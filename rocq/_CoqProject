-Q theories Verif

theories/Base.v
theories/CodecModel.v
theories/Spec.v
theories/BitLemmas.v
theories/Combinators.v
theories/LengthProofs.v
theories/IntegerProofs.v
theories/StringProofs.v
theories/Local.v
theories/Ranges.v
theories/Loops.v
theories/Frame.v
theories/Safety.v
theories/Api.v
theories/ApiProofs.v
theories/AcceptProofs.v
theories/ApiSpec.v
theories/MiscProofs.v
theories/CodecFacts.v
theories/Theorems_Codec.v
theories/DeriveModel.v
theories/DeriveSpec.v
theories/DeriveProofs.v
theories/DeriveFacts.v
theories/DeriveInversion.v
theories/Theorems_Derive.v
theories/X691.v
theories/X691Spec.v
theories/X691Proofs.v
theories/X691Facts.v
theories/Theorems_X691.v
theories/Asn1Model.v
theories/GenModel.v
theories/ResolveModel.v
theories/TokenModel.v
theories/ParserModel.v
theories/ModuleModel.v
theories/DefinitionModel.v
theories/CompilerSpec.v
theories/ConstraintProofs.v
theories/GenProofs.v
theories/NameProofs.v
theories/TopoProofs.v
theories/ObjectProofs.v
theories/ResolveProofs.v
theories/ModuleProofs.v
theories/UniqueProofs.v
theories/OpenProofs.v
theories/CompilerFacts.v
theories/OpenNameSpec.v
theories/OpenNameProofs.v
theories/WordSpec.v
theories/WordProofs.v
theories/Theorems_Compiler.v
theories/TokenSpec.v
theories/TokenProofs.v
theories/Theorems_Tokenizer.v
theories/ParserSpec.v
theories/ReadProofs.v
theories/ReadDefProofs.v
theories/GrammarProofs.v
theories/DefinitionSpec.v
theories/DefGrammarProofs.v
theories/ParserFacts.v
theories/Theorems_Parser.v
theories/ParamSpec.v
theories/ParamProofs.v
theories/ParamFacts.v
theories/Theorems_Params.v
theories/RustModel.v
theories/RustSpec.v
theories/RustProofs.v
theories/RustCompileProofs.v
theories/AttributeProofs.v
theories/RustFacts.v
theories/ObjectFacts.v
theories/Theorems_Rust.v
theories/LegalSpec.v
theories/LegalProofs.v
theories/SpelledProofs.v
theories/WrittenProofs.v
theories/MeetProofs.v
theories/Theorems_Meet.v
theories/PlainProofs.v
theories/Theorems_Names.v
theories/LinkSpec.v
theories/LinkProofs.v
theories/LinkFacts.v
theories/Theorems_Link.v
theories/X691Types.v
theories/X691TypesSpec.v
theories/X691TypesProofs.v
theories/NumberProofs.v
theories/X691TypesFacts.v
theories/Theorems_X691Types.v
theories/OrderSpec.v
theories/OrderProofs.v
theories/OrderFacts.v
theories/Theorems_Order.v
theories/RelaySpec.v
theories/RelayProofs.v
theories/RelayCanonProofs.v
theories/RelayFacts.v
theories/Theorems_Relay.v
theories/ArriveSpec.v
theories/ArriveProofs.v
theories/ArriveFacts.v
theories/Theorems_Arrive.v
theories/LooseSpec.v
theories/LooseProofs.v
theories/LooseDefProofs.v
theories/LooseFacts.v
theories/Theorems_Loose.v
theories/ShapeSpec.v
theories/ShapeProofs.v
theories/ShapeFacts.v
theories/Theorems_Shape.v
theories/SessionModel.v
theories/SessionSpec.v
theories/SessionProofs.v
theories/SessionReplay.v
theories/SessionFacts.v
theories/SessionAnswers.v
theories/Theorems_Session.v
theories/SizeSpec.v
theories/SizeProofs.v
theories/Theorems_Size.v
theories/VersionSpec.v
theories/VersionProofs.v
theories/RevisionSpec.v
theories/RevisionProofs.v
theories/VersionFacts.v
theories/Theorems_Version.v
theories/CheckSpec.v
theories/CheckProofs.v
theories/CheckModuleProofs.v
theories/ProtocolSpec.v
theories/BuildProofs.v
theories/BuildSpec.v
theories/BuildCodec.v
theories/ProtocolCheck.v
theories/ProtocolProofs.v
theories/NgapFiles.v
theories/NgapSpec.v
theories/NgapRun.v
theories/NgapRun1.v
theories/NgapFacts.v
theories/Theorems_Check.v
theories/GrowthSpec.v
theories/GrowthProofs.v
theories/GrowthFacts.v
theories/Theorems_Growth.v
theories/BuildFacts.v
theories/Theorems_Build.v

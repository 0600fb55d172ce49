-Q theories Verif
theories/PyStr.v
theories/PyStrFacts.v
theories/Regex.v
theories/RegexFacts.v
theories/Ref.v
theories/SpecRef.v
theories/RefMatch.v
theories/RefProofs.v
theories/RefLaws.v
theories/RefLossless.v
theories/SpecInt.v
theories/IntProofs.v
theories/PropRef.v
theories/RefOld.v
theories/SpecRefOld.v
theories/RefOldProofs.v
theories/PropRefOld.v
theories/PySort.v
theories/PySortFacts.v
theories/Container.v
theories/SpecContainer.v
theories/ContainerProofs.v
theories/ContainerLaws.v
theories/ContainerExamples.v
theories/PropContainer.v
theories/Model.v
theories/SpecModel.v
theories/ModelProofs.v
theories/ModelExamples.v
theories/PropModel.v
theories/DecFacts.v
theories/Value.v
theories/SpecValue.v
theories/ValueProofs.v
theories/ValueExamples.v
theories/PropValue.v
theories/Index.v
theories/SpecIndex.v
theories/IndexProofs.v
theories/IndexExamples.v
theories/PropIndex.v
theories/Query.v
theories/SpecQuery.v
theories/QueryProofs.v
theories/QueryExamples.v
theories/PropQuery.v
theories/SortTiers.v
theories/SpecSortTiers.v
theories/SortTiersProofs.v
theories/SortTiersUnique.v
theories/SortTiersAny.v
theories/SortTiersExamples.v
theories/PropSortTiers.v
theories/Attr.v
theories/SpecAttr.v
theories/AttrProofs.v
theories/AttrExamples.v
theories/PropAttr.v
theories/XmlStd.v
theories/Xml.v
theories/XmlText.v
theories/SpecXml.v
theories/SpecXmlText.v
theories/XmlProofs.v
theories/XmlTextProofs.v
theories/XmlExamples.v
theories/PropXml.v
theories/Json.v
theories/SpecJson.v
theories/JsonText.v
theories/SpecJsonText.v
theories/JsonProofs.v
theories/JsonTextProofs.v
theories/SpecLoad.v
theories/LoadProofs.v
theories/JsonExamples.v
theories/PropJson.v
theories/Iter.v
theories/SpecIter.v
theories/IterProofs.v
theories/PropIter.v
theories/Validate.v
theories/SpecValidate.v
theories/ValidateProofs.v
theories/ValidateExamples.v
theories/PropValidate.v
theories/Scripts.v
theories/SpecScripts.v
theories/SortScriptProofs.v
theories/PartitionProofs.v
theories/TallyProofs.v
theories/ScriptExamples.v
theories/PropScripts.v
theories/Path.v
theories/SpecPath.v
theories/PathTokenProofs.v
theories/PathFuel.v
theories/PathProofs.v
theories/PathLaws.v
theories/PathDesc.v
theories/PathSpace.v
theories/SpecPathRef.v
theories/PathRefProofs.v
theories/PathExamples.v
theories/PropPath.v
theories/Latex.v
theories/SpecLatex.v
theories/LatexEscProofs.v
theories/LatexTableProofs.v
theories/LatexAlignProofs.v
theories/LatexStackProofs.v
theories/LatexTextProofs.v
theories/LatexExamples.v
theories/SpecLatexDoc.v
theories/LatexDocProofs.v
theories/PropLatex.v
theories/Odin.v
theories/SpecOdin.v
theories/OdinProofs.v
theories/OdinXmlProofs.v
theories/OdinExamples.v
theories/PropOdin.v
theories/Toolbox.v
theories/SpecToolbox.v
theories/ToolboxText.v
theories/ToolboxProofs.v
theories/ToolboxTiers.v
theories/ToolboxIgts.v
theories/SpecToolboxDoc.v
theories/ToolboxAlign.v
theories/ToolboxXml.v
theories/ToolboxExamples.v
theories/PropToolbox.v
theories/Itsdb.v
theories/SpecItsdb.v
theories/ItsdbProofs.v
theories/ItsdbExamples.v
theories/PropItsdb.v
theories/SpecReload.v
theories/SpecChunks.v
theories/ChunksProofs.v
theories/ReloadProofs.v
theories/TextRunProofs.v
theories/AttrOrder.v
theories/SpecAttrOrder.v
theories/AttrOrderProofs.v
theories/XmlTextExamples.v
theories/PropXmlText.v
theories/ReloadExamples.v
theories/PropReload.v
theories/JsonRunProofs.v
theories/JsonTextExamples.v
theories/SpecJsonSettle.v
theories/JsonSettleProofs.v
theories/JsonSettleText.v
theories/PropJsonText.v
theories/Files.v
theories/ImportRun.v
theories/SpecImport.v
theories/ImportRunProofs.v
theories/ImportReadProofs.v
theories/ImportExamples.v
theories/PropImport.v
theories/SameProofs.v
theories/Stream.v
theories/SpecStream.v
theories/ExportRun.v
theories/StreamProofs.v
theories/StreamExamples.v
theories/PropStream.v
theories/ValidateRun.v
theories/SpecValidateRun.v
theories/ValidateRunProofs.v
theories/ValidateRunExamples.v
theories/PropValidateRun.v
theories/ChunksExamples.v
theories/PropChunks.v
theories/Live.v
theories/SpecLive.v
theories/LiveProofs.v
theories/PropLive.v
theories/Format.v
theories/SpecFormat.v
theories/FormatProofs.v
theories/PropFormat.v
theories/Report.v
theories/SpecReport.v
theories/ReportProofs.v
theories/PropReport.v
theories/Command.v
theories/PartitionRun.v
theories/SpecPartition.v
theories/PartRunProofs.v
theories/PartAgainProofs.v
theories/PartExamples.v
theories/PropPartition.v
theories/SpecCommand.v
theories/CommandProofs.v
theories/BlindProofs.v
theories/CommandExamples.v
theories/PropCommand.v
theories/Schema.v
theories/SpecSchema.v
theories/SchemaProofs.v
theories/SchemaErrProofs.v
theories/SchemaRunProofs.v
theories/SchemaExamples.v
theories/PropSchema.v
theories/SpecErrors.v
theories/ErrorsProofs.v
theories/ErrorsData.v
theories/PropErrors.v
theories/SpecPathSame.v
theories/PathSameProofs.v
theories/QueryRun.v
theories/SpecQueryRun.v
theories/QueryRunProofs.v
theories/QueryRunExamples.v
theories/PropQueryRun.v
theories/CommandText.v
theories/SpecCommandText.v
theories/CommandTextProofs.v
theories/CommandTextExamples.v
theories/PropCommandText.v
theories/ToolboxRun.v
theories/SpecToolboxRun.v
theories/ToolboxRunProofs.v
theories/ToolboxRunExamples.v
theories/PropToolboxRun.v
theories/Substitute.v
theories/SpecSubstitute.v
theories/SubstituteProofs.v
theories/SubstituteExamples.v
theories/PropSubstitute.v
theories/ItsdbRun.v
theories/SpecItsdbRun.v
theories/ItsdbRunProofs.v
theories/ItsdbRunExamples.v
theories/PropItsdbRun.v
theories/Repr.v
theories/SpecRepr.v
theories/ReprProofs.v
theories/ReprExamples.v
theories/PropRepr.v
theories/QName.v
theories/SpecQName.v
theories/QNameProofs.v
theories/QNameExamples.v
theories/PropQName.v

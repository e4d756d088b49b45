-Q theories Verif
theories/Base.v
theories/RbxlValues.v
theories/RbxlWordProofs.v
theories/SpecValues.v
theories/RbxlValuesProofs.v
theories/RbxlArrays.v
theories/TransposeProofs.v
theories/SpecArrays.v
theories/RbxlArraysProofs.v
theories/PropValues.v
theories/PropArrays.v
theories/SpecWire.v
theories/PropWire.v
theories/RbxlModel.v
theories/RbxlFile.v
theories/SpecModel.v
theories/RbxlModelProofs.v
theories/SpecFile.v
theories/RbxlFileProofs.v
theories/PropFile.v
theories/SpecChunks.v
theories/PropChunks.v
theories/RbxValues.v
theories/Errors.v
theories/SpecErrors.v
theories/PropErrors.v
theories/SpecRoot.v
theories/PropRoot.v
theories/Tree.v
theories/SpecTree.v
theories/TreeProofs.v
theories/PropTree.v
theories/RbxlCodec.v
theories/SpecCodec.v
theories/PropCodecValues.v
theories/SortProofs.v
theories/RbxlCodecEnc.v
theories/RbxlCodecCols.v
theories/RbxlCodecOut.v
theories/RbxlCodecShape.v
theories/RbxlCodecDec.v
theories/RbxlCodecRound.v
theories/RbxlCodecImage.v
theories/XmlText.v
theories/XmlDoc.v
theories/RbxlApi.v
theories/RbxlWriter.v
theories/RbxlReader.v
theories/PropReader.v
theories/SpecJsonRead.v
theories/PropJsonValues.v
theories/JsonDoc.v
theories/PropJsonDoc.v
theories/SpecWriter.v
theories/RbxlWriterProofs.v
theories/PropWriter.v
theories/RbxlCodecFile.v
theories/PropCodec.v
theories/SpecTables.v
theories/PropTables.v
theories/PropOrder.v
theories/PropCodecEx.v
theories/SpecDecode.v
theories/RbxlCodecTree.v
theories/RbxlCodecForest.v
theories/PropDecode.v
theories/SpecWarn.v
theories/SpecStats.v
theories/PropStatsErr.v
theories/PropWarn.v
theories/XmlTotal.v
theories/XmlCodec.v
theories/XmlApi.v
theories/SpecXml.v
theories/SpecXmlDecode.v
theories/SpecXmlEncode.v
theories/XmlLayout.v
theories/XmlWriter.v
theories/XmlWriterProofs.v
theories/PropXmlWriter.v
theories/XmlBare.v
theories/XmlTextProofs.v
theories/Base64Reader.v
theories/SpecBase64.v
theories/PropBase64.v
theories/XmlValues.v
theories/XmlTreeEnc.v
theories/XmlTreeDec.v
theories/XmlRound.v
theories/XmlFloats.v
theories/XmlFloatsProofs.v
theories/XmlFloatsFit.v
theories/SpecXmlValues.v
theories/PropXml.v
theories/PropXmlDecode.v
theories/PropXmlValues.v
theories/PropXmlEncode.v
theories/PropXmlOpts.v
theories/XmlResave.v
theories/PropXmlKept.v
theories/SpecXmlText.v
theories/XmlGrammar.v
theories/XmlGrammarTags.v
theories/SpecXmlErrors.v
theories/XmlLines.v
theories/SpecXmlWrite.v
theories/XmlWriteProofs.v
theories/SpecXmlRead.v
theories/XmlReadProofs.v
theories/XmlReadValues.v
theories/PropXmlRead.v
theories/SpecXmlTree.v
theories/XmlTreeRead.v
theories/XmlTreeWrites.v
theories/PropXmlContents.v
theories/PropXmlText.v
theories/PropXmlEx.v
theories/PropXmlWrite.v
theories/PropApi.v
theories/Ieee.v
theories/Json.v
theories/SpecJson.v
theories/JsonProofs.v
theories/JsonTree.v
theories/JsonDec.v
theories/JsonFinite.v
theories/JsonRead.v
theories/JsonOrder.v
theories/PropJson.v
theories/PropJsonRead.v
theories/Declare.v
theories/SpecDeclare.v
theories/IeeeNearest.v
theories/DeclareNumbers.v
theories/DeclareProofs.v
theories/DeclareTree.v
theories/PropDeclare.v
theories/PropMixed.v
theories/RbxlDump.v
theories/SpecDump.v
theories/DumpProofs.v
theories/DumpQuote.v
theories/DumpValues.v
theories/DumpFile.v
theories/PropDump.v
theories/RbxlPartial.v
theories/SpecDumpLayout.v
theories/SpecPartial.v
theories/PropDumpLayout.v
theories/PropPartial.v
theories/PropPartialCFrame.v
theories/PropPartialMeta.v
theories/RbxStrings.v
theories/SpecStrings.v
theories/PropStrings.v
theories/StatCmd.v
theories/SpecStat.v
theories/PropStat.v
theories/Quat.v
theories/SpecQuat.v
theories/PropQuat.v
theories/PropColor.v
theories/RbxlResave.v
theories/RbxlResaveTree.v
theories/PropResave.v
theories/PropXmlLines.v
theories/SpecXmlResave.v
theories/XmlRetext.v
theories/PropXmlResave.v
theories/XmlSettle.v
theories/PropXmlSettle.v
theories/PropXmlResaveEx.v
theories/SpecConvert.v
theories/Convert.v
theories/PropConvert.v
theories/PropConvertEx.v
theories/SpecSame.v
theories/SameTree.v
theories/PropSame.v
theories/Commands.v
theories/SpecCommands.v
theories/PropCommands.v
theories/PropBothWays.v
theories/PropJsonText.v
theories/ErrText.v
theories/SpecErrText.v
theories/PropErrText.v

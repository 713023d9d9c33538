-Q theories Verif
theories/Base.v
theories/BaseFacts.v
theories/FieldsModel.v
theories/FieldsFacts.v
theories/FieldsProofs.v
theories/BufferModel.v
theories/BufferFacts.v
theories/HistoryFacts.v
theories/BufferProofs.v
theories/CoreModel.v
theories/BinWriterModel.v
theories/BinReaderModel.v
theories/Props_Fields.v
theories/Props_Buffer.v
theories/ScalarFacts.v
theories/CalendarFacts.v
theories/TimestampFacts.v
theories/TimestampProofs.v
theories/Props_Timestamp.v
theories/BinReaderSpec.v
theories/BinReaderSim.v
theories/BinReaderNest.v
theories/BinReaderRun.v
theories/BinReaderSession.v
theories/ReaderProofs.v
theories/Props_Reader.v
theories/BinFormat.v
theories/BinFormatFacts.v
theories/BinSoundFacts.v
theories/ReaderGrammarProofs.v
theories/ReaderEvents.v
theories/Props_ReaderGrammar.v
theories/ScalarProofs.v
theories/WriterFacts.v
theories/WriterProofs.v
theories/FloatProofs.v
theories/Props_Writer.v
theories/SymbolsModel.v
theories/SymbolsProofs.v
theories/Props_Symbols.v
theories/Cursor.v
theories/ManagedModel.v
theories/ManagedSpec.v
theories/ManagedReaderFacts.v
theories/ManagedReaderProofs.v
theories/ManagedWriterFacts.v
theories/ManagedWriterRun.v
theories/ManagedRoundTrip.v
theories/ManagedSessions.v
theories/LazyModel.v
theories/LazyProofs.v
theories/Props_Managed.v
theories/MultimapModel.v
theories/MultimapProofs.v
theories/Props_Multimap.v
theories/ManagedAccept.v
theories/SimpleionModel.v
theories/SimpleionSpec.v
theories/SimpleionProofs.v
theories/SimpleionDump.v
theories/Props_Simpleion.v
theories/EquivModel.v
theories/EquivSpec.v
theories/EquivProofs.v
theories/EquivMeaning.v
theories/EquivStructs.v
theories/Props_Equiv.v
theories/EquivRoundTrip.v
theories/Props_RoundTrip.v
theories/TextNumbers.v
theories/TextWriterModel.v
theories/WriterProtocol.v
theories/WriterProtocolProofs.v
theories/Props_WriterProtocol.v
theories/Props_TextWriter.v
theories/TextReaderModel.v
theories/TextReaderFacts.v
theories/TextReaderNest.v
theories/TextReaderChunks.v
theories/TextReaderErrors.v
theories/TextReaderTrace.v
theories/Props_TextReader.v
theories/JsonModel.v
theories/Props_Json.v
theories/TextWalk.v
theories/TextNumbersFacts.v
theories/TextTokens.v
theories/TextNumberTokens.v
theories/TextNumberValues.v
theories/TextFloats.v
theories/TextKeywords.v
theories/TextTimestamps.v
theories/TextQuoted.v
theories/TextBlobs.v
theories/TextSymbols.v
theories/TextStream.v
theories/TextRoundTripSpec.v
theories/Props_TextRoundTrip.v
theories/TextGrammar.v
theories/TextGaps.v
theories/TextReads.v
theories/TextNearest.v
theories/TextReadNumbers.v
theories/TextReadStamps.v
theories/TextReadWords.v
theories/TextReadNames.v
theories/TextReadItems.v
theories/TextReadQuoted.v
theories/TextReadLong.v
theories/TextReadLobs.v
theories/TextReadOps.v
theories/TextReadValues.v
theories/Props_TextGrammar.v
theories/TextValueModel.v
theories/TextValueSpec.v
theories/TextManaged.v
theories/TextValueProofs.v
theories/TextAscii.v
theories/TextValueLoad.v
theories/Props_TextValue.v
theories/LoadSpec.v
theories/LoadProofs.v
theories/LoadRefuse.v
theories/TextServes.v
theories/TextManagedReads.v
theories/TextTrees.v
theories/Props_Load.v
theories/BinScalars.v
theories/BinScalarProofs.v
theories/Props_BinScalars.v
theories/BinLoads.v
theories/Props_BinLoad.v
theories/BinAccepts.v
theories/BinAcceptProofs.v
theories/Props_BinAccept.v
theories/Props_BinLoadAccept.v
theories/Props_BinErrors.v
theories/Props_BinLoadErrors.v
theories/EventModel.v
theories/Props_Events.v
theories/Props_SymbolEq.v
theories/NatureModel.v
theories/Props_Nature.v
theories/Props_BinDump.v
theories/Props_DumpErrors.v
theories/TextValuesKept.v
theories/Props_TextLoadErrors.v
theories/Props_EventValues.v
theories/LoadedTables.v
theories/LoadedShape.v
theories/BinLoaded.v
theories/Props_LoadedValues.v
theories/TextCharsKept.v
theories/Props_LoadedText.v
theories/Props_TextUnicode.v
theories/QueueEnd.v
theories/TextEnds.v
theories/TextFinish.v
theories/TextRequests.v
theories/Props_TextEnds.v
theories/TextLoadEnds.v
theories/Props_TextLoadEnds.v
theories/UtilModel.v
theories/Props_Util.v
theories/Props_BinEnds.v
theories/DeriveModel.v
theories/Props_Derive.v
theories/EnumCopyModel.v
theories/Props_EnumCopy.v
theories/Assumptions.v

-Q theories Verif
theories/Model/Base.v
theories/Model/Strings.v
theories/Model/Float.v
theories/Model/TimeModel.v
theories/Model/Types.v
theories/Model/Collect.v
theories/Model/Lines.v
theories/Model/RawConvert.v
theories/Model/Compose.v
theories/Model/Ssa.v
theories/Model/Subrip.v
theories/Model/WebVtt.v
theories/Model/Iso6937Tables.v
theories/Model/Utf.v
theories/Model/Iso6937.v
theories/Model/Threads.v
theories/Model/StlTables.v
theories/Model/StlUtil.v
theories/Model/StlText.v
theories/Model/StlBinReader.v
theories/Model/StlBinWriter.v
theories/Model/Saving.v
theories/Model/Factory.v
theories/Model/Dump.v
theories/Model/Exceptions.v
theories/Model/Dumpsubs.v
theories/Tests/TestData.v
theories/Tests/RepoTests.v
theories/Spec/Outcome.v
theories/Spec/TimeSpec.v
theories/Proofs/FloatProofs.v
theories/Proofs/TimeProofs.v
theories/Proofs/TimeFloatProofs.v
theories/Proofs/TimeAddProofs.v
theories/Proofs/TimeFinal.v
theories/Properties/TimeProps.v
theories/Spec/SortSpec.v
theories/Spec/CollectSpec.v
theories/Spec/PositionSpec.v
theories/Spec/TextSpec.v
theories/Proofs/SortProofs.v
theories/Proofs/CollectProofs.v
theories/Proofs/PositionProofs.v
theories/Proofs/ColourProofs.v
theories/Proofs/EqualityProofs.v
theories/Properties/CollectProps.v
theories/Spec/CollectReadSpec.v
theories/Proofs/CollectReadProofs.v
theories/Properties/CollectReadProps.v
theories/Properties/PositionProps.v
theories/Spec/UnicodeSpec.v
theories/Spec/Iso6937Spec.v
theories/Proofs/Iso6937Proofs.v
theories/Proofs/StrayProofs.v
theories/Properties/Iso6937Props.v
theories/Proofs/StringProofs.v
theories/Spec/ComposeSpec.v
theories/Proofs/ComposeProofs.v
theories/Spec/StlTableSpec.v
theories/Proofs/StlTableProofs.v
theories/Properties/TableProps.v
theories/Properties/UtilProps.v
theories/Spec/Utf8Spec.v
theories/Proofs/UtfProofs.v
theories/Spec/StlFileSpec.v
theories/Spec/StlSamples.v
theories/Proofs/StlReadProofs.v
theories/Properties/UtfProps.v
theories/Properties/StlReaderProps.v
theories/Spec/StlWriteSpec.v
theories/Spec/AsIsSpec.v
theories/Spec/StlRoundTripSpec.v
theories/Spec/LongTextSpec.v
theories/Proofs/StlWriteProofs.v
theories/Proofs/StlRowProofs.v
theories/Proofs/StlWriterProofs.v
theories/Proofs/StlFileProofs.v
theories/Proofs/StlUseProofs.v
theories/Proofs/AsIsProofs.v
theories/Proofs/StlRoundTripProofs.v
theories/Proofs/LongTextProofs.v
theories/Proofs/LongSeenProofs.v
theories/Properties/StlWriterProps.v
theories/Properties/StlRoundTripProps.v
theories/Spec/LinesSpec.v
theories/Spec/RawSpec.v
theories/Spec/SsaTagSpec.v
theories/Spec/SubripSpec.v
theories/Spec/StopSpec.v
theories/Spec/SubripUseSpec.v
theories/Spec/SubripTagSpec.v
theories/Proofs/SsaTagProofs.v
theories/Proofs/LinesProofs.v
theories/Proofs/SubripTokenProofs.v
theories/Proofs/SubripFontProofs.v
theories/Proofs/SubripProofs.v
theories/Proofs/SubripStopProofs.v
theories/Proofs/SubripUseProofs.v
theories/Proofs/SubripTagProofs.v
theories/Properties/SubripProps.v
theories/Spec/WebVttSpec.v
theories/Proofs/WebVttProofs.v
theories/Proofs/WebVttUseProofs.v
theories/Properties/WebVttProps.v
theories/Spec/SsaSpec.v
theories/Proofs/SsaTextProofs.v
theories/Proofs/SsaProofs.v
theories/Spec/SsaUseSpec.v
theories/Spec/SsaOverflowSpec.v
theories/Proofs/SsaUseProofs.v
theories/Spec/NumberSpec.v
theories/Proofs/NumberProofs.v
theories/Proofs/SsaLayoutProofs.v
theories/Proofs/SsaSafeProofs.v
theories/Proofs/SsaOverflowProofs.v
theories/Properties/SsaProps.v
theories/Properties/NumberProps.v
theories/Spec/StlTextSpec.v
theories/Proofs/StlTextProofs.v
theories/Spec/StlTextUseSpec.v
theories/Proofs/StlTextUseProofs.v
theories/Properties/StlTextProps.v
theories/Spec/FactorySpec.v
theories/Proofs/FactoryProofs.v
theories/Spec/DumpSpec.v
theories/Spec/HexSpec.v
theories/Spec/RationalSpec.v
theories/Spec/MetadataSpec.v
theories/Spec/MessageSpec.v
theories/Spec/DumpsubsSpec.v
theories/Spec/WarningSpec.v
theories/Spec/AnyNumberSpec.v
theories/Spec/ThreadSpec.v
theories/Proofs/FiguresProofs.v
theories/Proofs/DumpProofs.v
theories/Proofs/HexProofs.v
theories/Proofs/NameProofs.v
theories/Proofs/RationalProofs.v
theories/Proofs/MetadataProofs.v
theories/Proofs/MessageProofs.v
theories/Proofs/WarningProofs.v
theories/Proofs/AnyNumberProofs.v
theories/Proofs/ThreadProofs.v
theories/Proofs/DumpsubsProofs.v
theories/Proofs/LocaleStringProofs.v
theories/Properties/FactoryProps.v
theories/Properties/DumpProps.v
theories/Properties/HexProps.v
theories/Properties/RationalProps.v
theories/Properties/MessageProps.v
theories/Properties/WarningProps.v
theories/Properties/ThreadProps.v
theories/Spec/SavingSpec.v
theories/Proofs/SavingProofs.v
theories/Properties/SavingProps.v
theories/Spec/TextFileSpec.v
theories/Proofs/TextFileProofs.v
theories/Proofs/BomProofs.v
theories/Proofs/FileEndsProofs.v
theories/Properties/TextFileProps.v
theories/Spec/SessionSpec.v
theories/Proofs/SessionProofs.v
theories/Properties/SessionProps.v
theories/Spec/ConvertSpec.v
theories/Spec/ConvertSeenSpec.v
theories/Proofs/ConvertProofs.v
theories/Proofs/LoadSaveProofs.v
theories/Proofs/SaveTwiceProofs.v
theories/Proofs/KeptProofs.v
theories/Proofs/ConvertSeenProofs.v
theories/Properties/ConvertProps.v
theories/Properties/KeptProps.v
theories/Spec/PieceSpec.v
theories/Spec/ColourRangeSpec.v
theories/Proofs/PieceProofs.v
theories/Proofs/PieceUtf8Proofs.v
theories/Proofs/ColourRangeProofs.v
theories/Properties/PieceProps.v
theories/Spec/CollectOrderSpec.v
theories/Proofs/CollectOrderProofs.v
theories/Properties/CollectOrderProps.v
theories/Spec/CollectAgainSpec.v
theories/Proofs/CollectAgainProofs.v
theories/Spec/JoinSpec.v
theories/Proofs/JoinProofs.v
theories/Proofs/FileUseProofs.v
theories/Proofs/SsaClockProofs.v
theories/Properties/JoinProps.v
theories/Spec/CommentSpec.v
theories/Proofs/CommentProofs.v
theories/Properties/CommentProps.v
theories/Spec/TakeOutSpec.v
theories/Spec/RetimeSpec.v
theories/Proofs/TakeOutProofs.v
theories/Proofs/TakeOutStlProofs.v
theories/Proofs/RetimeProofs.v
theories/Proofs/RetimeStlProofs.v
theories/Properties/TakeOutProps.v
theories/Properties/RetimeProps.v
theories/Proofs/TimeOrderProofs.v
theories/Properties/TimeOrderProps.v
theories/Spec/SameCuesSpec.v
theories/Proofs/SameCuesProofs.v
theories/Properties/SameCuesProps.v
theories/Spec/SsaStyleSpec.v
theories/Proofs/SsaStyleProofs.v
theories/Properties/SsaStyleProps.v
theories/Spec/FieldOrderSpec.v
theories/Proofs/FieldOrderProofs.v
theories/Properties/FieldOrderProps.v
theories/Proofs/ReadAgainProofs.v
theories/Properties/CollectAgainProps.v
theories/Spec/TimesFromSpec.v
theories/Proofs/TimesFromProofs.v
theories/Properties/TimesFromProps.v
theories/Spec/CueNumberSpec.v
theories/Proofs/CueNumberProofs.v
theories/Properties/CueNumberProps.v
theories/Spec/HeaderMeaningSpec.v
theories/Proofs/HeaderMeaningProofs.v
theories/Properties/HeaderMeaningProps.v
theories/Spec/CollectPlaceSpec.v
theories/Proofs/CollectPlaceProofs.v
theories/Properties/CollectPlaceProps.v

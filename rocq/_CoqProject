-Q theories Verif
theories/Base.v
theories/Tokens.v
theories/Parser.v
theories/ParserRun.v
theories/SpecEvents.v
theories/ParserProofs.v
theories/ParserStep.v
theories/ParserStates.v
theories/ParserTheorems.v
theories/ParserTerm.v
theories/ParserExamples.v
theories/PropertiesParser.v
theories/SpecLoad.v
theories/ParserLoad.v
theories/ParserSim.v
theories/ParserAccept.v
theories/SpecTree.v
theories/ParserTree.v
theories/SpecStream.v
theories/ParserStream.v
theories/ParserPairs.v
theories/PropertiesTree.v
theories/PropertiesLoad.v
theories/Scalar.v
theories/SpecScalar.v
theories/ScalarProofs.v
theories/Yaml.v
theories/ScalarTags.v
theories/PropertiesScalar.v
theories/SpecYaml.v
theories/YamlProofs.v
theories/PropertiesYaml.v
theories/Loader.v
theories/SpecValue.v
theories/LoaderProofs.v
theories/LoaderAlias.v
theories/LoaderLoad.v
theories/LoaderTheorems.v
theories/PropertiesLoader.v
theories/Escaper.v
theories/SpecEscaper.v
theories/Lazy.v
theories/SpecLazy.v
theories/EscaperProofs.v
theories/Base64.v
theories/SpecBase64.v
theories/Base64Proofs.v
theories/PropertiesMisc.v
theories/ParserIter.v
theories/SpecIter.v
theories/IterProofs.v
theories/PropertiesIter.v
theories/Chars.v
theories/Source.v
theories/Simd.v
theories/Buffered.v
theories/SpecSource.v
theories/SourceProofs.v
theories/SimdProofs.v
theories/BufferedProofs.v
theories/PropertiesSource.v
theories/Cursor.v
theories/Scanner.v
theories/Pipeline.v
theories/Conformance.v
theories/SpecScan.v
theories/CursorProofs.v
theories/CursorRuns.v
theories/CursorScalars.v
theories/ScannerInv.v
theories/ScannerFetch.v
theories/ScannerRun.v
theories/ScannerTheorems.v
theories/ScannerHang.v
theories/ScannerStated.v
theories/PropertiesScanner.v
theories/SpecEmit.v
theories/Emitter.v
theories/ExactCursor.v
theories/EmitterText.v
theories/EmitterProofs.v
theories/EmitterLayout.v
theories/EmitterPlain.v
theories/EmitterStated.v
theories/PropertiesEmitter.v
theories/SpecQuoted.v
theories/FoldedQuotes.v
theories/EagerScan.v
theories/ExactPlain.v
theories/ScanSteps.v
theories/NodeScan.v
theories/DumpScan.v
theories/LoadText.v
theories/SpecRoundTrip.v
theories/RoundTripScalars.v
theories/RoundTrip.v
theories/RoundTripExact.v
theories/PropertiesRoundTrip.v
theories/PropertiesQuoted.v
theories/Serde.v
theories/SpecSerde.v
theories/SerdeProofs.v
theories/SerdeTotal.v
theories/SerdeWitness.v
theories/PropertiesSerde.v
theories/SerdeSer.v
theories/SpecSer.v
theories/SerProofs.v
theories/PropertiesSer.v
theories/FromText.v
theories/TextDocs.v
theories/SpecFromText.v
theories/FromTextProofs.v
theories/ScalarDocs.v
theories/ScalarDocsRead.v
theories/SpecSerRead.v
theories/SerRead.v
theories/PropertiesFromText.v
theories/SpecJson.v
theories/JsonCursor.v
theories/FlowScan.v
theories/JsonScan.v
theories/JsonLoad.v
theories/PropertiesJson.v
theories/SpecBlock.v
theories/BlockScan.v
theories/BlockDoc.v
theories/BlockStep.v
theories/BlockCut.v
theories/BlockHang.v
theories/BlockLoad.v
theories/PropertiesBlock.v
theories/SpecPlain.v
theories/PlainScan.v
theories/PlainDocs.v
theories/PropertiesPlain.v
theories/SpecStrings.v
theories/SpecFlow.v
theories/SpecMeaning.v
theories/SpecLayout.v
theories/LayoutCursor.v
theories/LayoutScan.v
theories/StringScan.v
theories/LayoutScalar.v
theories/TreeLike.v
theories/FlowSteps.v
theories/PropsScan.v
theories/PropsWords.v
theories/FlowNodes.v
theories/FlowLeaf.v
theories/LayoutNodes.v
theories/LayoutDocs.v
theories/MeaningProofs.v
theories/LayoutLoad.v
theories/DecoratedDocs.v
theories/SpecLayoutSerde.v
theories/LayoutSerde.v
theories/StringDocs.v
theories/PropertiesStrings.v
theories/PropertiesLayout.v
theories/FlowLoad.v
theories/PropertiesFlow.v
theories/SpecProps.v
theories/PropsDocs.v
theories/PropertiesProps.v
theories/SpecAccept.v
theories/QuotedOnly.v
theories/GapsOnly.v
theories/PropsOnly.v
theories/PlainOnly.v
theories/BlockOnly.v
theories/HeadersOnly.v
theories/Stands.v
theories/Covers.v
theories/AcceptCases.v
theories/PropertiesAccept.v
theories/Values.v
theories/SpecEqual.v
theories/ValuesProofs.v
theories/PropertiesValues.v
theories/SerAll.v
theories/SpecSerAll.v
theories/SerAllProofs.v
theories/PropertiesSerAll.v
theories/SimdOps.v
theories/SimdOpsProofs.v
theories/PropertiesSimd.v
theories/TestText.v
theories/SpecTestText.v
theories/TestTextProofs.v
theories/PropertiesTestText.v
theories/SpecJsonSerde.v
theories/JsonSerde.v
theories/PropertiesJsonSerde.v
theories/SpecSerdeOnly.v
theories/SerdeOnly.v
theories/OnlyText.v
theories/SpecWorn.v
theories/WornDocs.v
theories/PropertiesSerdeOnly.v
theories/SpecJsonOnly.v
theories/JsonOnly.v
theories/PropertiesWorn.v
theories/PropertiesJsonOnly.v
theories/TestEvents.v
theories/SpecTestEvents.v
theories/TestEventsProofs.v
theories/PropertiesTestEvents.v
theories/SpecSingle.v
theories/SingleLoad.v
theories/PropertiesSingle.v

-Q theories Verif
theories/PyStr.v
theories/PyInt.v
theories/Codec.v
theories/Env.v
theories/HostModel.v
theories/UrlRecord.v
theories/Parser.v
theories/SearchParams.v
theories/UrlApi.v
theories/Schemes.v
theories/Validators.v
theories/Lemmas.v
theories/SpecText.v
theories/CodecProofs.v
theories/QuoteProofs.v
theories/PyIntProofs.v
theories/LegacyProofs.v
theories/PropText.v
theories/SpecHost.v
theories/IPv4Proofs.v
theories/SpecPyInt.v
theories/IntGrammar.v
theories/IPv6Proofs.v
theories/IPv6Conf.v
theories/SpecIPv6.v
theories/IPv6Grammar.v
theories/HostProofs.v
theories/ValidatorProofs.v
theories/ExampleEnv.v
theories/PropHost.v
theories/FlatParser.v
theories/LoopProofs.v
theories/FlatProofs.v
theories/TermProofs.v
theories/WfProofs.v
theories/RoundTrip.v
theories/SpecUrl.v
theories/ParserProofs.v
theories/RefProofs.v
theories/PathProofs.v
theories/UrlProps.v
theories/QueryProofs.v
theories/PropParser.v
theories/SpecParams.v
theories/ParamProofs.v
theories/PropParams.v
theories/SetterProofs.v
theories/LooseProofs.v
theories/SpecApi.v
theories/ApiProofs.v
theories/ObjProofs.v
theories/ValidityProofs.v
theories/ExactProofs.v
theories/GetSet.v
theories/SpecLaws.v
theories/SetterLaws.v
theories/PropApi.v
theories/PropLaws.v
theories/SpecPairs.v
theories/SurrogateProofs.v
theories/HeapParser.v
theories/World.v
theories/SpecWorld.v
theories/WorldProofs.v
theories/AttachProofs.v
theories/PropPrograms.v
theories/HeapProofs.v
theories/PropState.v
theories/SpecParser.v
theories/StandardProofs.v
theories/HostStandard.v
theories/HostExact.v
theories/HostExactBase.v
theories/PropStandard.v
theories/SpecSetters.v
theories/SetterStandard.v
theories/SpecWhole.v
theories/SetterWhole.v
theories/SetterExact.v
theories/PropSetters.v
theories/SpecReference.v
theories/SuffixProofs.v
theories/RefLaws.v
theories/PropReference.v
theories/SpecReports.v
theories/ReportProofs.v
theories/ReportStandard.v
theories/SpecHostReports.v
theories/SpecWriting.v
theories/WritingProofs.v
theories/WritingStandard.v
theories/WritingValid.v
theories/SpecNamedScheme.v
theories/WritingValidBase.v
theories/PropWriting.v
theories/HostReportProofs.v
theories/WholeReports.v
theories/PropReports.v
theories/SpecRfc.v
theories/SpecAuthority.v
theories/RfcProofs.v
theories/AuthorityProofs.v
theories/PropAuthority.v
theories/Repr.v
theories/SpecRepr.v
theories/ReprProofs.v
theories/PropRepr.v
theories/Idna.v
theories/SpecIdna.v
theories/IdnaProofs.v
theories/PropIdna.v
theories/SpecLimit.v
theories/LimitProofs.v
theories/PropLimit.v
theories/Message.v
theories/MsgHost.v
theories/MsgParser.v
theories/SpecMessages.v
theories/MsgProofs.v
theories/MsgHostProofs.v
theories/MsgParserProofs.v
theories/MsgCallProofs.v
theories/CredentialProofs.v
theories/PropMessages.v
theories/MsgValidators.v
theories/SpecValidity.v
theories/MsgValidatorProofs.v
theories/PropValidity.v
theories/MsgApi.v
theories/SpecSetText.v
theories/MsgApiProofs.v
theories/PropSetText.v
theories/SpecLevels.v
theories/MsgLevelProofs.v
theories/PropLevels.v
theories/Recorded.v
theories/RecordedUrls.v
theories/RecordedSetters.v
theories/RecordedParams.v
theories/RecordedApi.v
theories/SpecCanon.v
theories/CanonProofs.v
theories/PropCanon.v
theories/SpecLength.v
theories/SizeProofs.v
theories/LengthProofs.v
theories/PropLength.v
theories/SpecRaise.v
theories/RaiseProofs.v
theories/SetterRaise.v
theories/PropRaise.v
theories/SpecHostWriting.v
theories/HostWritingProofs.v
theories/PropHostWriting.v
theories/Trace.v
theories/SpecTrace.v
theories/TraceProofs.v
theories/PropTrace.v
theories/Args.v
theories/SpecArgs.v
theories/ArgProofs.v
theories/Slices.v
theories/SpecSlices.v
theories/SliceProofs.v
theories/PropArgs.v
theories/SpecObjects.v
theories/HeldProofs.v
theories/PropObjects.v
theories/TextExact.v
theories/GetSetExact.v
theories/AnyCodec.v
theories/SpecCodec.v
theories/AnyCodecProofs.v
theories/AnyCodecLog.v
theories/PropCodec.v
theories/OriginProofs.v
theories/PropOrigin.v
theories/ValidityRaise.v
theories/SpecPartway.v
theories/PartwayProofs.v
theories/PropPartway.v
theories/EncodingProofs.v
theories/PropEncodings.v
theories/SpecFileReference.v
theories/FileRefProofs.v
theories/PropFileReference.v
theories/RfcFileProofs.v
theories/PropRfcFile.v
theories/FileAuthority.v
theories/PropFileAuthority.v
theories/AnyForm.v
theories/SpecForm.v
theories/FormProofs.v
theories/PropForm.v
theories/BasicParse.v
theories/SpecOverride.v
theories/OverrideProofs.v
theories/PropOverride.v
theories/SpecIPv6Names.v
theories/IPv6Names.v
theories/PropIPv6Names.v
theories/RecordedDocs.v
theories/RecordedPrograms.v
theories/AliasProofs.v
theories/AliasOverride.v
theories/PropAlias.v
theories/ReprTuple.v
theories/SpecReprTuple.v
theories/ReprTupleProofs.v
theories/PropReprTuple.v
theories/SpecRaised.v
theories/RaisedProofs.v
theories/PropRaised.v
theories/SchemeProofs.v
theories/PropScheme.v
theories/SchemeFile.v
theories/Csv.v
theories/SpecCsv.v
theories/CsvProofs.v
theories/CsvShipped.v
theories/PropCsv.v
theories/BaseQuery.v
theories/BaseQueryUrl.v
theories/EncodingBase.v
theories/PropBaseQuery.v

-Q theories Verif

theories/Bytes.v
theories/Dec.v
theories/Features.v
theories/Nom.v
theories/Types.v
theories/Utf8.v
theories/Conv.v
theories/SeqSet.v
theories/Base64.v
theories/Date.v
theories/EncodeCtx.v
theories/Encode.v
theories/ParseCore.v
theories/ParseBody.v
theories/ParseCmd.v
theories/ParseResp.v
theories/Decode.v
theories/Fragmentizer.v
theories/BytesFacts.v
theories/EncodeFacts.v
theories/FragSpec.v
theories/FragFacts.v
theories/FragProps.v
theories/Valid.v
theories/ParserFacts.v
theories/QuotedFacts.v
theories/OkTac.v
theories/OkCore.v
theories/OkBody.v
theories/OkCmd.v
theories/OkResp.v
theories/ValidFacts.v
theories/DecodeSpec.v
theories/DecodeFacts.v
theories/DecodeProps.v
theories/RtFacts.v
theories/RtTac.v
theories/RtCore.v
theories/RtBody.v
theories/RtCmd.v
theories/RtResp.v
theories/OtherCode.v
theories/SeqSpec.v
theories/SeqFacts.v
theories/SeqText.v
theories/SeqProps.v
theories/EncodeApi.v
theories/RoundTripSpec.v
theories/WrittenFacts.v
theories/EncFragFacts.v
theories/RoundTripProps.v
theories/LineFacts.v
theories/StreamSpec.v
theories/StreamFacts.v
theories/StreamProps.v
theories/Ctors.v
theories/ValueSpec.v
theories/ValueFacts.v
theories/TagFacts.v
theories/NameFacts.v
theories/ReadFacts.v
theories/ValueProps.v
theories/Grammar.v
theories/SoundTac.v
theories/SoundCore.v
theories/SoundBody.v
theories/SoundCmd.v
theories/SoundCap.v
theories/CompTac.v
theories/CompCore.v
theories/CompBody.v
theories/CompCmd.v
theories/SoundResp.v
theories/CompResp.v
theories/RespGrammar.v
theories/GrammarProps.v
theories/CompleteProps.v
theories/Traverse.v
theories/ModeFacts.v
theories/ModeProps.v
theories/CaseFacts.v
theories/CaseParse.v
theories/CaseName.v
theories/CaseProps.v
theories/Debug.v
theories/SecretProps.v
theories/NumberSpec.v
theories/NumberFacts.v
theories/NumberProps.v
theories/Session.v
theories/SessionSpec.v
theories/SessionFacts.v
theories/SessionProps.v
theories/Serde.v
theories/SerdeTypes.v
theories/SerdeSpec.v
theories/SerdeFacts.v
theories/SerdeRt.v
theories/SerdeOk.v
theories/SerdeFuel.v
theories/SerdeProps.v
theories/BuildProps.v
theories/Conformance.v
theories/ConformanceTypes.v
theories/Arb.v
theories/ArbFacts.v
theories/ArbProps.v
theories/Client.v
theories/ClientFacts.v
theories/ClientProps.v
theories/Display.v
theories/DisplayProps.v
theories/SizeSpec.v
theories/SizeFacts.v
theories/SizeProps.v
theories/ModSeqFacts.v
theories/ModSeqProps.v
theories/ArbSpec.v
theories/ArbCover.v
theories/ArbBound.v
theories/ArbCoverProps.v
theories/SeqLimitProps.v
theories/SeqFromProps.v
theories/DepthProps.v
theories/NameExactProps.v
theories/CostNom.v
theories/CostCore.v
theories/CostBody.v
theories/CostCmd.v
theories/CostResp.v
theories/CostErase.v
theories/CostFacts.v
theories/CostTac.v
theories/CostLin.v
theories/CostLin2.v
theories/CostLin3.v
theories/CostLin4.v
theories/CostLin5.v
theories/CostLin6.v
theories/CostPay.v
theories/CostProps.v
theories/FragCost.v
theories/FragCostProps.v
theories/SyncSpec.v
theories/SyncFacts.v
theories/SyncParse.v
theories/SyncCore.v
theories/SyncTidy.v
theories/SyncResp.v
theories/SyncStream.v
theories/SyncProps.v
theories/ReaderSpec.v
theories/ReaderProps.v
theories/KindFacts.v
theories/KindProps.v
theories/MoreSpec.v
theories/MoreFacts.v
theories/MoreProps.v
theories/GrowSeq.v
theories/GrowFacts.v
theories/GrowProps.v
theories/StrictSpec.v
theories/StrictFacts.v
theories/StrictProps.v
theories/CleanSpec.v
theories/CleanFacts.v
theories/CleanEncFacts.v
theories/CleanProps.v
theories/AppliedMsg.v
theories/AppliedBuild.v
theories/RelaySpec.v
theories/RelayFacts.v
theories/RelayProps.v
theories/FragExample.v
theories/FragInfoFacts.v
theories/FragInfoProps.v
theories/Stack.v
theories/StackFacts.v
theories/StackProps.v
theories/Profile.v
theories/ProfileFacts.v
theories/ProfileProps.v
theories/AbnfSpec.v
theories/AbnfFacts.v
theories/AbnfCore.v
theories/AbnfCmd.v
theories/AbnfProps.v
theories/AbnfBody.v
theories/AbnfResp.v
theories/AbnfText.v
theories/AbnfRespProps.v
theories/SentSpec.v
theories/SentFacts.v
theories/SentCmd.v
theories/SentResp.v
theories/SentProps.v
theories/SizedFacts.v
theories/SentRelay.v
theories/SentNeeded.v
theories/ReadingProps.v
theories/FramedFacts.v
theories/FramedProps.v
theories/AnswerProps.v
theories/ErrorText.v
theories/ErrorProps.v
theories/MatchProps.v
theories/ServerRun.v
theories/HostileProps.v

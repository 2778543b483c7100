-Q theories Verif
theories/Base.v
theories/BaseFacts.v
theories/B64.v
theories/B64Facts.v
theories/Util.v
theories/UtilFacts.v
theories/Tables.v
theories/Matter.v
theories/MatterFacts.v
theories/MatterBin.v
theories/MatterText.v
theories/MatterMore.v
theories/Spec.v
theories/MatterThms.v
theories/PropsMatter.v
theories/Indexer.v
theories/IndexerFacts.v
theories/IndexerMore.v
theories/SpecIndexer.v
theories/IndexerThms.v
theories/PropsIndexer.v
theories/Counter.v
theories/CounterFacts.v
theories/SpecCounter.v
theories/CounterThms.v
theories/PropsCounter.v
theories/FloatLog.v
theories/UtilThms.v
theories/PropsUtil.v
theories/Prims.v
theories/SpecPrims.v
theories/PrimsFacts.v
theories/PrimsThms.v
theories/PropsPrims.v
theories/Json.v
theories/JsonFacts.v
theories/SpecJson.v
theories/JsonThms.v
theories/PropsJson.v
theories/Tholder.v
theories/SpecTholder.v
theories/TholderFacts.v
theories/TholderThms.v
theories/PropsTholder.v
theories/Common.v
theories/SpecCommon.v
theories/CommonFacts.v
theories/CommonThms.v
theories/PropsCommon.v
theories/Saider.v
theories/SpecSaider.v
theories/SaiderFacts.v
theories/SaiderThms.v
theories/PropsSaider.v
theories/Diger.v
theories/Sadder.v
theories/SpecSadder.v
theories/SadderFacts.v
theories/SadderThms.v
theories/PropsSadder.v
theories/Prefixer.v
theories/SpecPrefixer.v
theories/PrefixerThms.v
theories/PropsPrefixer.v
theories/DigerThms.v
theories/PropsDiger.v
theories/Signer.v
theories/SpecSigner.v
theories/SignerThms.v
theories/PropsSigner.v
theories/CreatorThms.v
theories/PropsCreator.v
theories/Pather.v
theories/SpecPather.v
theories/PatherThms.v
theories/PropsPather.v
theories/Messaging.v
theories/SpecMessaging.v
theories/MessagingThms.v
theories/PropsMessaging.v
theories/SpecKinds.v
theories/KindThms.v
theories/PropsKind.v
theories/State.v
theories/SpecState.v
theories/StateThms.v
theories/PropsState.v
theories/Edit.v
theories/SpecEdit.v
theories/EditThms.v
theories/PropsEdit.v
theories/FieldThms.v
theories/PropsField.v
theories/Pretty.v
theories/SpecPretty.v
theories/PrettyThms.v
theories/PropsPretty.v
theories/SpecFlow.v
theories/FlowThms.v
theories/PropsFlow.v
theories/Renew.v
theories/RenewThms.v
theories/PropsRenew.v
theories/Short.v
theories/SpecShort.v
theories/ShortThms.v
theories/PropsShort.v
theories/Stale.v
theories/StaleThms.v
theories/PropsStale.v
theories/SpecPanic.v
theories/PanicThms.v
theories/PropsPanic.v
theories/Setters.v
theories/SpecSetter.v
theories/SetterThms.v
theories/PropsSetter.v
theories/SpecWeigh.v
theories/WeighThms.v
theories/PropsWeigh.v
theories/LimenThms.v
theories/PropsLimen.v
theories/Release.v
theories/ReleaseFacts.v
theories/ReleaseWeights.v
theories/ReleaseThms.v
theories/PropsRelease.v
theories/ReleaseKeysThms.v
theories/PropsReleaseKeys.v
theories/SpecLabel.v
theories/LabelThms.v
theories/PropsLabel.v
theories/SpecStrip.v
theories/StripThms.v
theories/PropsStrip.v
theories/SpecMessage.v
theories/MessageThms.v
theories/PropsMessage.v
theories/ReportThms.v
theories/PropsReport.v
theories/SpecAccept.v
theories/AcceptThms.v
theories/PropsAccept.v
theories/SpecGrammar.v
theories/GrammarFacts.v
theories/GrammarThms.v
theories/PropsGrammar.v
theories/SpecCompact.v
theories/CompactThms.v
theories/PropsCompact.v
theories/RoundThms.v
theories/PropsRound.v
theories/Verify.v
theories/Ingest.v
theories/Events.v
theories/SpecLog.v
theories/World.v
theories/SpecCred.v
theories/Forgery.v
theories/Chain.v
theories/VerifyFacts.v
theories/VerifyThms.v
theories/PropsVerify.v
theories/LogThms.v
theories/PropsLog.v
theories/SpecIngest.v
theories/IngestThms.v
theories/PropsIngest.v
theories/CredThms.v
theories/PropsCred.v
theories/ChainThms.v
theories/PropsChain.v
theories/FollowFacts.v
theories/SpecBuild.v
theories/FollowThms.v
theories/PropsFollow.v
theories/SpecLife.v
theories/LifeThms.v
theories/PropsLife.v
theories/SpecWitness.v
theories/WitnessThms.v
theories/PropsWitness.v
theories/Issue.v
theories/SpecIssue.v
theories/IssueFacts.v
theories/IssueThms.v
theories/Issued.v
theories/IssueCases.v
theories/PropsIssue.v
theories/Partial.v
theories/SpecPartial.v
theories/PartialFacts.v
theories/PartialCases.v
theories/PartialThms.v
theories/PropsPartial.v
theories/Schemer.v
theories/SpecSchemer.v
theories/SchemerCases.v
theories/SchemerThms.v
theories/PropsSchemer.v
theories/SpecExtra.v
theories/ExtraFacts.v
theories/ExtraThms.v
theories/PropsExtra.v
theories/Wasm.v
theories/SpecWasm.v
theories/WasmThms.v
theories/PropsWasm.v
theories/SpecEndorse.v
theories/EndorseThms.v
theories/PropsEndorse.v
theories/SpecExact.v
theories/SpecAgain.v
theories/ExactThms.v
theories/AgainThms.v
theories/PropsExact.v
theories/PropsAgain.v
theories/DepthThms.v
theories/PropsDepth.v
theories/SpecSeal.v
theories/SealThms.v
theories/PropsSeal.v
theories/RepeatThms.v
theories/PropsRepeat.v
theories/SpecStream.v
theories/StreamThms.v
theories/PropsStream.v
theories/FreshThms.v
theories/PropsFresh.v
theories/ReadbackThms.v
theories/PropsReadback.v
theories/SpecFork.v
theories/ForkThms.v
theories/PropsFork.v
theories/SpecDown.v
theories/DownThms.v
theories/PropsDown.v
theories/RatifyThms.v
theories/PropsRatify.v
theories/OwnSchemaThms.v
theories/PropsOwnSchema.v
theories/SpecAnchor.v
theories/AnchorThms.v
theories/PropsAnchor.v
theories/ControlThms.v
theories/PropsControl.v
theories/SpecFall.v
theories/FallThms.v
theories/PropsFall.v
theories/NewcomerThms.v
theories/PropsNewcomer.v
theories/SpecForge.v
theories/ForgeThms.v
theories/PropsForge.v
theories/OneKeyThms.v
theories/PropsOneKey.v
theories/CoSignThms.v
theories/PropsCoSign.v

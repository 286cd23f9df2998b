-Q theories Verif
theories/Base.v
theories/BaseFacts.v
theories/Pkt.v
theories/SpecPkt.v
theories/CrcFacts.v
theories/PktFacts.v
theories/DecodeFacts.v
theories/PropPkt.v
theories/Msg.v
theories/SpecMsg.v
theories/DecFacts.v
theories/MsgFacts.v
theories/WireFacts.v
theories/IsoFacts.v
theories/PropMsg.v
theories/Tokio.v
theories/SpecConn.v
theories/ConnFacts.v
theories/OwedFacts.v
theories/PropConn.v
theories/FmtMsg.v
theories/Layout.v
theories/State.v
theories/SpecState.v
theories/StateFacts.v
theories/RunFacts.v
theories/HistFacts.v
theories/ViewFacts.v
theories/ExState.v
theories/PropState.v
theories/PropSink.v
theories/PropInit.v
theories/Serde.v
theories/SerdeFacts.v
theories/PropSerde.v
theories/Mqtt.v
theories/SpecMqtt.v
theories/MqttFacts.v
theories/PropMqtt.v
theories/PropCode.v
theories/Eq.v
theories/Fuzz.v
theories/PropFuzz.v
theories/Fmt.v
theories/PropFmt.v
theories/PropJson.v
theories/Cli.v
theories/SpecCli.v
theories/PropCli.v
theories/SpecInit.v
theories/InitFacts.v
theories/PropConnect.v
theories/Config.v
theories/SpecConfig.v
theories/PropConfig.v
theories/PropCrc.v
theories/PropLive.v
theories/PropSum.v
theories/Queue.v
theories/PropQueue.v
theories/RepoTests.v
theories/PropIndep.v
theories/Wake.v
theories/PropWake.v
theories/JsonText.v
theories/SpecJson.v
theories/JsonFacts.v
theories/JsonWrite.v
theories/ShowFacts.v
theories/TextFacts.v
theories/BridgeText.v
theories/PropText.v
theories/SpecReason.v
theories/ReasonFacts.v
theories/PropReason.v
theories/PropEnd.v
theories/FmtText.v
theories/SpecLog.v
theories/LogFacts.v
theories/PropLog.v
theories/SpecFail.v
theories/PropFail.v
theories/Log.v
theories/SpecTrace.v
theories/PropTrace.v
theories/PropBridgeLog.v
theories/PropChron.v
theories/PropLogCode.v
theories/SpecBuffer.v
theories/PropBuffer.v
theories/Pair.v
theories/SpecPair.v
theories/PairFacts.v
theories/PropPair.v
theories/SpecSend.v
theories/SendFacts.v
theories/PropSend.v
theories/WatchLog.v
theories/SpecWatch.v
theories/PropWatch.v
theories/WakeInit.v
theories/SpecWakeInit.v
theories/PropWakeInit.v
theories/SpecEq.v
theories/PropEq.v
theories/SpecTasks.v
theories/PropTasks.v
theories/SpecServe.v
theories/ServeFacts.v
theories/PropServe.v
theories/SpecProgram.v
theories/ProgramFacts.v
theories/PropProgram.v
theories/WakeBridge.v
theories/SpecHost.v
theories/HostFacts.v
theories/PropHost.v
theories/SpecRest.v
theories/PropRest.v
theories/SpecShown.v
theories/PropShown.v
theories/SpecEvery.v
theories/SpecAny.v
theories/PropAny.v
theories/PropEvery.v
theories/SpecStory.v
theories/PropStory.v
theories/WakeWatch.v
theories/SpecView.v
theories/PropView.v
theories/PropScene.v
theories/SpecCalm.v
theories/PropCalm.v
theories/SpecDeaf.v
theories/PropDeaf.v
theories/Main.v
theories/SpecMain.v
theories/PropMain.v
theories/PropHint.v
theories/Hex.v
theories/SpecHex.v
theories/PropHex.v
theories/SpecHa.v
theories/PropHa.v
theories/SpecRestart.v
theories/PropRestart.v
theories/SpecTruth.v
theories/TruthFacts.v
theories/PropTruth.v
theories/Release.v
theories/PropRelease.v
theories/SpecFlow.v
theories/FlowFacts.v
theories/PropFlow.v
theories/PropButton.v
theories/SpecLiteral.v
theories/PropLiteral.v
theories/SpecUtf8.v
theories/PropUnsafe.v
theories/PropHouse.v
theories/SpecSettle.v
theories/PropSettle.v
theories/SpecFollow.v
theories/PropFollow.v
theories/SpecAgree.v
theories/PropAgree.v
theories/SpecRecord.v
theories/PropRecord.v
theories/SpecApart.v
theories/PropApart.v
theories/SpecUnasked.v
theories/PropUnasked.v
theories/SpecOrder.v
theories/PropOrder.v
theories/SpecMore.v
theories/PropMore.v
theories/SpecLoss.v
theories/PropLoss.v
theories/SpecGone.v
theories/PropGone.v
theories/SpecTolerant.v
theories/PropTolerant.v
theories/SpecResync.v
theories/PropResync.v
theories/PropStale.v
theories/SpecShare.v
theories/PropShare.v
theories/SpecListen.v
theories/PropListen.v
theories/SpecOnce.v
theories/PropOnce.v
theories/SpecUnchecked.v
theories/PropUnchecked.v
theories/SpecSame.v
theories/PropSame.v
theories/SpecSameZone.v
theories/PropSameZone.v
theories/SpecSize.v
theories/PropSize.v
theories/PropSizeAscii.v
theories/SpecModest.v
theories/PropFits.v
theories/SpecTraffic.v
theories/PropTraffic.v

-Q theories Verif
theories/Base.v
theories/BaseFacts.v
theories/VLU.v
theories/VLUSpec.v
theories/VLUProofs.v
theories/PropVLU.v
theories/IndexSet.v
theories/IndexSetSpec.v
theories/IndexSetProofs.v
theories/PropIndexSet.v
theories/Packet.v
theories/PacketSpec.v
theories/PacketProofs.v
theories/PropPacket.v
theories/LinkedList.v
theories/LinkedListSpec.v
theories/LinkedListProofs.v
theories/PropLinkedList.v
theories/SumListFacts.v
theories/RecvFlow.v
theories/RecvFlowSpec.v
theories/RecvFlowProofs.v
theories/RecvFlowAny.v
theories/RecvFlowMsg.v
theories/RecvFlowRun.v
theories/PropRecvFlow.v
theories/WriteReceipt.v
theories/WriteReceiptSpec.v
theories/WriteReceiptProofs.v
theories/PropWriteReceipt.v
theories/UserData.v
theories/UserDataSpec.v
theories/UserDataProofs.v
theories/PropUserData.v
theories/Ack.v
theories/AckSpec.v
theories/AckProofs.v
theories/PropAck.v
theories/SendFlow.v
theories/SendFlowSpec.v
theories/SendFlowProofs.v
theories/SendFlowInv.v
theories/SendFlowSteps.v
theories/SendFlowRun.v
theories/PropSendFlow.v
theories/Hex.v
theories/HexSpec.v
theories/HexProofs.v
theories/PropHex.v
theories/Checksums.v
theories/ChecksumsSpec.v
theories/ChecksumsProofs.v
theories/PropChecksums.v
theories/TC.v
theories/TCSpec.v
theories/TCProofs.v
theories/PropTC.v
theories/Media.v
theories/MediaSpec.v
theories/MediaProofs.v
theories/PropMedia.v
theories/Reorder.v
theories/ReorderSpec.v
theories/ReorderProofs.v
theories/PropReorder.v
theories/Address.v
theories/AddressSpec.v
theories/AddressProofs.v
theories/PropAddress.v
theories/FlashCert.v
theories/FlashCertSpec.v
theories/FlashCertProofs.v
theories/PropFlashCert.v
theories/Cookie.v
theories/CookieProofs.v
theories/PropCookie.v
theories/Retainer.v
theories/RetainerSpec.v
theories/RetainerProofs.v
theories/PropRetainer.v
theories/FlowSync.v
theories/FlowSyncSpec.v
theories/FlowSyncProofs.v
theories/PropFlowSync.v
theories/URI.v
theories/URISpec.v
theories/URIProofs.v
theories/PropURI.v
theories/AMF.v
theories/AMFSpec.v
theories/AMFProofs.v
theories/PropAMF.v
theories/Timer.v
theories/TimerSpec.v
theories/TimerProofs.v
theories/PropTimer.v
theories/Performer.v
theories/PerformerSpec.v
theories/PerformerProofs.v
theories/PropPerformer.v
theories/Interface.v
theories/InterfaceSpec.v
theories/InterfaceProofs.v
theories/PropInterface.v
theories/FlashKey.v
theories/FlashKeySpec.v
theories/FlashKeyProofs.v
theories/FlashKeyHS.v
theories/FlashKeyAgree.v
theories/PropFlashKey.v
theories/Congestion.v
theories/CongestionSpec.v
theories/CongestionProofs.v
theories/PropCongestion.v
theories/Rto.v
theories/RtoSpec.v
theories/RtoProofs.v
theories/PropRto.v
theories/Session.v
theories/SessionSpec.v
theories/SessionProofs.v
theories/SessionRun.v
theories/PropSession.v
theories/TCConn.v
theories/TCConnSpec.v
theories/TCConnProofs.v
theories/PropTCConn.v
theories/RTMP.v
theories/RTMPSpec.v
theories/RTMPProofs.v
theories/RTMPRun.v
theories/PropRTMP.v
theories/SendFlowTrack.v
theories/SendFlowOps.v
theories/SendFlowRel.v
theories/RecvFlowPeer.v
theories/EndToEnd.v
theories/EndToEndSpec.v
theories/EndToEndProofs.v
theories/PropEndToEnd.v
theories/SendFlowEnd.v
theories/RecvFlowEnd.v
theories/EndToEndEnd.v
theories/PropEndOfFlow.v
theories/SendFlowLive.v
theories/EndToEndLive.v
theories/PropProgress.v
theories/Mobility.v
theories/MobilitySpec.v
theories/MobilityProofs.v
theories/MobilityTables.v
theories/PropMobility.v
theories/Startup.v
theories/StartupSpec.v
theories/StartupProofs.v
theories/PropStartup.v
theories/Handshake.v
theories/HandshakeSpec.v
theories/HandshakeProofs.v
theories/HandshakeStepProofs.v
theories/HandshakeAgreeProofs.v
theories/HandshakeLiveProofs.v
theories/PropHandshake.v
theories/HandshakeOutSpec.v
theories/HandshakeOutProofs.v
theories/PropHandshakeOut.v
theories/Sched.v
theories/SchedSpec.v
theories/SchedProofs.v
theories/SchedStepProofs.v
theories/SchedServeProofs.v
theories/SchedRunProofs.v
theories/SchedAckProofs.v
theories/PropSched.v
theories/Redir.v
theories/RedirSrv.v
theories/RedirSpec.v
theories/RedirProofs.v
theories/RedirRunProofs.v
theories/RedirSrvProofs.v
theories/RedirPropProofs.v
theories/PropRedir.v
theories/Alive.v
theories/AliveSpec.v
theories/AliveProofs.v
theories/AliveLive.v
theories/AliveHist.v
theories/AlivePropProofs.v
theories/PropAlive.v
theories/AliveDead.v
theories/Rate.v
theories/RateSpec.v
theories/RateProofs.v
theories/PropRate.v
theories/Loop.v
theories/LoopSpec.v
theories/LoopProofs.v
theories/LoopRun.v
theories/LoopCycle.v
theories/LoopKern.v
theories/LoopWatch.v
theories/PropLoop.v
theories/URIParse.v
theories/URIParseSpec.v
theories/URIParseProofs.v
theories/URIResolve.v
theories/PropURIParse.v
theories/JSON.v
theories/JSONSpec.v
theories/JSONProofs.v
theories/JSONText.v
theories/PropJSON.v
theories/WebSock.v
theories/WebSockSpec.v
theories/WebSockProofs.v
theories/WebSockFrames.v
theories/WebSockStream.v
theories/WebSockMessages.v
theories/WebSockEnd.v
theories/PropWebSock.v
theories/WebSockHttpSpec.v
theories/WebSockHttp.v
theories/PropWebSockHttp.v
theories/TCMsg.v
theories/TCMsgSpec.v
theories/TCMsgProofs.v
theories/PropTCMsg.v
theories/RTWS.v
theories/RTWSSpec.v
theories/RTWSProofs.v
theories/RTWSRecv.v
theories/RTWSSys.v
theories/RTWSEnd.v
theories/PropRTWS.v
theories/Posix.v
theories/PosixSpec.v
theories/PosixProofs.v
theories/PosixMore.v
theories/PropPosix.v
theories/PStream.v
theories/PStreamSpec.v
theories/PStreamProofs.v
theories/PStreamMore.v
theories/PropPStream.v
theories/Sleep.v
theories/SleepSpec.v
theories/SleepProofs.v
theories/SleepMore.v
theories/PropSleep.v
theories/Rtx.v
theories/RtxSpec.v
theories/RtxProofs.v
theories/RtxMore.v
theories/PropRtx.v
theories/Ossl.v
theories/OsslSpec.v
theories/OsslProofs.v
theories/OsslMore.v
theories/PropOssl.v

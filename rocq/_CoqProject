-Q theories Verif
theories/Base.v
theories/Syntax.v
theories/SyntaxSpec.v
theories/SyntaxVarint.v
theories/SyntaxProofs.v
theories/SyntaxProofs2.v
theories/SyntaxProofs3.v
theories/SyntaxMain.v
theories/PropSyntax.v
theories/Frame.v
theories/FrameProofs.v
theories/Record.v
theories/RecordSpec.v
theories/RecordProofs.v
theories/RecordProofs2.v
theories/PropRecord.v
theories/Timer.v
theories/TimerProofs.v
theories/PropTimer.v
theories/Handshake.v
theories/HandshakeSpec.v
theories/HandshakeProofs.v
theories/PropHandshake.v
theories/DtlsSpec.v
theories/DtlsProofs.v
theories/DtlsProofs2.v
theories/DtlsProofs3.v
theories/PropDtls.v
theories/Crypto.v
theories/CryptoSpec.v
theories/CryptoProofs.v
theories/PropCrypto.v
theories/Messages.v
theories/MessageProofs.v
theories/MessageSpec.v
theories/MessageProofs2.v
theories/MessageProofs3.v
theories/PropMessages.v
theories/Pki.v
theories/Negotiation.v
theories/NegotiationSpec.v
theories/NegotiationProofs.v
theories/PropNegotiation.v
theories/Machine.v
theories/Client.v
theories/Cookie.v
theories/Server.v
theories/Conn.v
theories/Toy.v
theories/ConnSpec.v
theories/MachineProofs.v
theories/CtxProofs.v
theories/StepProofs.v
theories/ConnProofs.v
theories/PropConfig.v
theories/PropConn.v
theories/EarlyProofs.v
theories/PropEarly.v
theories/RunSpec.v
theories/RunProofs.v
theories/TraceProofs.v
theories/CalmProofs.v
theories/PropTrace.v
theories/SigSpec.v
theories/SigProofs.v
theories/PropSig.v
theories/SessionSpec.v
theories/SessionProofs.v
theories/ClientRun.v
theories/ClientSession.v
theories/Forge.v
theories/PropSession.v
theories/ServerRun.v
theories/ServerSession.v
theories/PropServer.v
theories/PropDecode.v
theories/PropCrash.v
theories/ChannelSpec.v
theories/ChannelProofs.v
theories/PropChannel.v
theories/PropExporter.v
theories/PropTicket.v
theories/HelloProofs.v
theories/AgreeSpec.v
theories/AgreeProofs.v
theories/PropAgree.v
theories/KeyProofs.v
theories/PropEnds.v
theories/WireProofs.v
theories/StillProofs.v
theories/PipeProofs.v
theories/HalfProofs.v
theories/MadeProofs.v
theories/JointSpec.v
theories/TurnProofs.v
theories/JointHello.v
theories/JointProofs.v
theories/TicketProofs.v
theories/PropJoint.v
theories/PropBinder.v
theories/CrashSpec.v
theories/CrashProofs.v
theories/CrashProofs2.v
theories/CrashProofs3.v
theories/CrashProofs4.v
theories/CrashProofs5.v
theories/PropCrash2.v
theories/Tags.v
theories/TagSpec.v
theories/PropTags.v
theories/Dial.v
theories/PropDial.v
theories/CompleteSpec.v
theories/ForwardProofs.v
theories/CompleteProofs.v
theories/PlaySpec.v
theories/CompleteRun.v
theories/CompleteJoint.v
theories/PropComplete.v
theories/StallProofs.v
theories/PropStall.v
theories/LiveProofs.v
theories/PropLive.v
theories/BackProofs.v
theories/SafeSpec.v
theories/PropSafe.v
theories/GoProofs.v
theories/ReachSpec.v
theories/PropReach.v
theories/Threads.v
theories/ThreadSpec.v
theories/PropThreads.v
theories/PropRace.v
theories/HideSpec.v
theories/PropHide.v
theories/Locks.v
theories/LockSpec.v
theories/PropLocks.v
theories/Limit.v
theories/LimitSpec.v
theories/PropLimit.v
theories/Faulty.v
theories/FaultySpec.v
theories/PropFaulty.v

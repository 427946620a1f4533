-Q theories Verif
theories/Bytes.v
theories/BytesProofs.v
theories/Parser.v
theories/ParserProofs.v
theories/Crypto.v
theories/Kdf.v
theories/Wire.v
theories/SpecLayout.v
theories/WireProofs.v
theories/Toy.v
theories/WireSeq.v
theories/WireExtra.v
theories/P_Wire.v
theories/Replay.v
theories/SpecReplay.v
theories/ReplayProofs.v
theories/ReplayConc.v
theories/ReplayConcProofs.v
theories/P_Replay.v
theories/SecretMgr.v
theories/SecretMgrProofs.v
theories/P_Secret.v
theories/Base64.v
theories/Base64Proofs.v
theories/Server.v
theories/ServerSeq.v
theories/SpecServer.v
theories/ServerProofs.v
theories/ServerProps.v
theories/ServerProps2.v
theories/ServerProps3.v
theories/ServerExamples.v
theories/ServerForge.v
theories/OpenProofs.v
theories/P_Server.v
theories/Conc.v
theories/SpecConc.v
theories/ConcProofs.v
theories/ConcThms.v
theories/ConcExamples.v
theories/P_Conc.v
theories/Keys.v
theories/Client.v
theories/ClientSeq.v
theories/SpecClient.v
theories/ClientProofs.v
theories/KeysProofs.v
theories/SpecE2E.v
theories/E2EProofs.v
theories/ClientProps.v
theories/Agreement.v
theories/SpecKeys.v
theories/KdfProofs.v
theories/ClientExamples.v
theories/P_Client.v
theories/P_Keys.v
theories/ClientConc.v
theories/SpecClientConc.v
theories/ClientConcProofs.v
theories/ClientConcThms.v
theories/ClientConcExamples.v
theories/ClientProps2.v
theories/ServerProps4.v
theories/P_ClientConc.v
theories/Dnssec.v
theories/SpecDnssec.v
theories/DnssecProofs.v
theories/DnssecThms.v
theories/DnssecExamples.v
theories/P_Dnssec.v
theories/KeyCache.v
theories/SpecKeyCache.v
theories/KeyCacheProofs.v
theories/KeyCacheExamples.v
theories/P_KeyCache.v
theories/Pool.v
theories/SpecPool.v
theories/PoolProofs.v
theories/PoolInv.v
theories/PoolWait.v
theories/PoolExec.v
theories/PoolThms.v
theories/P_Pool.v
theories/Udp.v
theories/SpecUdp.v
theories/UdpProofs.v
theories/UdpThms.v
theories/P_Udp.v
theories/Life.v
theories/SpecLife.v
theories/LifeProofs.v
theories/LifeInv.v
theories/LifeWait.v
theories/LifeThms.v
theories/P_Life.v
theories/Timed.v
theories/SpecTimed.v
theories/TimedProofs.v
theories/P_Timed.v
theories/Usage.v
theories/SpecUsage.v
theories/UsageProofs.v
theories/DraftProofs.v
theories/DraftProofs2.v
theories/DraftProofs3.v
theories/DraftProofs4.v
theories/P_Usage.v
theories/P_Draft.v
theories/TimedClient.v
theories/TimedArrival.v
theories/PartialProofs.v
theories/SpecPartial.v
theories/PartialProofs2.v
theories/P_Partial.v
theories/P_Partial2.v
theories/SpecChannel.v
theories/ChannelProofs.v
theories/ChannelExamples.v
theories/P_Channel.v
theories/PoolSession.v
theories/LostProofs.v
theories/P_Close.v
theories/PartialProofs3.v
theories/PartialLife.v
theories/UdpMore.v
theories/P_Partial3.v
theories/SpecMalformed.v
theories/MalformedProofs.v
theories/P_Malformed.v
theories/Resources.v
theories/SpecResources.v
theories/ResourcesProofs.v
theories/P_Resources.v
theories/Hostport.v
theories/SpecHostport.v
theories/HostportProofs.v
theories/P_Hostport.v
theories/LongProofs.v
theories/LongExamples.v
theories/SlowProofs.v
theories/UdpDeadline.v
theories/SpecUdpDeadline.v
theories/UdpDeadlineProofs.v
theories/P_Limits.v
theories/MultiConn.v
theories/SpecMulti.v
theories/MultiProofs.v
theories/MultiSeq.v
theories/ServerPanic.v
theories/MultiExamples.v
theories/P_Multi.v
theories/Registry.v
theories/SpecRegistry.v
theories/RegistryProofs.v
theories/RegistryIntro.v
theories/RegistryLeave.v
theories/ChatUser.v
theories/SpecChat.v
theories/ChatUserProofs.v
theories/ChatUrl.v
theories/RegistryTruth.v
theories/RegistryExec.v
theories/ChatExamples.v
theories/P_Chat.v
theories/System.v
theories/SpecSystem.v
theories/Kahn.v
theories/Duo.v
theories/DuoRun.v
theories/DuoTalk.v
theories/SystemSim.v
theories/SystemProofs.v
theories/SystemExamples.v
theories/P_System.v
theories/UdpSystem.v
theories/SpecUdpSystem.v
theories/UdpDuo.v
theories/UdpTalk.v
theories/UdpSim.v
theories/UdpSysProofs.v
theories/UdpSysExamples.v
theories/P_UdpSystem.v
theories/Duplex.v
theories/SpecDuplex.v
theories/DuplexProofs.v
theories/DuplexExamples.v
theories/P_Duplex.v
theories/Dolev.v
theories/SpecDolev.v
theories/DolevProofs.v
theories/DolevExamples.v
theories/P_Secrecy.v
theories/SpecSecretMgr.v
theories/PoolTidy.v
theories/LifePort.v
theories/SecretCount.v
theories/P_Partial4.v
theories/SpecUdpLoss.v
theories/UdpLoss.v
theories/P_UdpLoss.v
theories/SpecUdpDup.v
theories/UdpDup.v
theories/P_UdpDup.v
theories/UdpSend.v
theories/P_UdpSend.v
theories/LifeDrain.v
theories/LifeWind.v
theories/P_Drain.v
theories/Team.v
theories/SpecTeam.v
theories/ODuo.v
theories/ODuoRun.v
theories/TeamProofs.v
theories/TeamExamples.v
theories/P_Team.v
theories/Writers.v
theories/SpecWriters.v
theories/WritersProofs.v
theories/WritersExamples.v
theories/P_Writers.v
theories/RotationProofs.v
theories/P_Rotation.v
theories/DnssecOrder.v
theories/P_DnssecOrder.v
theories/QuickStart.v
theories/QuickProofs.v
theories/QuickExamples.v
theories/P_QuickStart.v
theories/UdpQuick.v
theories/UdpQuickExamples.v
theories/P_UdpQuick.v
theories/StallProofs.v
theories/P_Stall.v
theories/SpecRetry.v
theories/RetryProofs.v
theories/P_Retry.v
theories/AmplifyProofs.v
theories/P_Amplify.v
theories/Production.v
theories/ProductionProofs.v
theories/ProductionExamples.v
theories/P_Production.v
theories/SpecAgain.v
theories/AgainProofs.v
theories/P_Again.v
theories/Aging.v
theories/SpecAging.v
theories/AgingProofs.v
theories/AgingExamples.v
theories/P_Aging.v
theories/SpecInsist.v
theories/InsistProofs.v
theories/P_Insist.v
theories/RemoteAddr.v
theories/RemoteAddrProofs.v
theories/P_RemoteAddr.v
theories/SetupTwiceProofs.v
theories/SetupDialProofs.v
theories/SetupTwiceExamples.v
theories/P_SetupTwice.v
theories/SpecReaders.v
theories/ReadersProofs.v
theories/P_Readers.v
theories/SpecRoam.v
theories/RoamProofs.v
theories/P_Roam.v
theories/Handler.v
theories/SpecHandler.v
theories/HandlerProofs.v
theories/HandlerExamples.v
theories/HandlerUdp.v
theories/P_Handler.v
theories/SpecRestart.v
theories/RestartProofs.v
theories/P_Restart.v
theories/SpecPersist.v
theories/PersistProofs.v
theories/PersistExamples.v
theories/P_Persist.v
theories/SpecWander.v
theories/WanderProofs.v
theories/WanderExamples.v
theories/P_Wander.v

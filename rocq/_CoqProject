-Q theories Verif
theories/Base.v
theories/BaseProofs.v
theories/Incremental.v
theories/IncrementalProofs.v
theories/Wire.v
theories/WireProofs.v
theories/Additive.v
theories/AdditiveProofs.v
theories/Onion.v
theories/OnionProofs.v
theories/Shuffle.v
theories/ParShuffle.v
theories/Sizes.v
theories/State.v
theories/Database.v
theories/CipherBatch.v
theories/Range.v
theories/Handlers.v
theories/Batch.v
theories/Party.v
theories/Chain.v
theories/Spec.v
theories/SharingProofs.v
theories/Toy.v
theories/PropsSharing.v
theories/ShuffleProofs.v
theories/ParShuffleProofs.v
theories/ParShuffleFacts.v
theories/PropsShuffle.v
theories/CipherBatchProofs.v
theories/StateProofs.v
theories/PropsStorage.v
theories/Stream.v
theories/StreamProofs.v
theories/PropsStream.v
theories/ChainSpec.v
theories/OnlineProofs.v
theories/OfflineProofs.v
theories/OfflineParty.v
theories/ChainProofs.v
theories/WrapProofs.v
theories/PropsChain.v
theories/NoiseFloat.v
theories/NoiseFloatProofs.v
theories/RangeProofs.v
theories/PropsNoise.v
theories/NoiseReal.v
theories/PrivacySpec.v
theories/NoiseRealProofs.v
theories/PrivacyProofs.v
theories/PropsPrivacy.v
theories/Config.v
theories/ConfigSpec.v
theories/ConfigProofs.v
theories/PropsConfig.v
theories/Lts.v
theories/Servers.v
theories/ServersProofs.v
theories/PropsServers.v
theories/MainFlags.v
theories/PropsMain.v
theories/Net.v
theories/NetProofs.v
theories/NetChain.v
theories/PropsNet.v
theories/Exchange.v
theories/ExchangeSpec.v
theories/ExchangeProofs.v
theories/ExchangeFacts.v
theories/PropsExchange.v
theories/Parallel.v
theories/ParChain.v
theories/ParChainSpec.v
theories/ParMergeProofs.v
theories/ParForwardProofs.v
theories/ParBackwardProofs.v
theories/ParSpec.v
theories/ParOnlineProofs.v
theories/ParPartyProofs.v
theories/PermFacts.v
theories/ParFacts.v
theories/ParSecretsProofs.v
theories/ParTagProofs.v
theories/ParStage.v
theories/ParParty.v
theories/ParChainProofs.v
theories/PropsParallel.v
theories/PropsParChain.v
theories/PeerSpec.v
theories/PeerProofs.v
theories/PropsPeer.v
theories/Procs.v
theories/ProcProofs.v
theories/ProcChain.v
theories/ProcNet.v
theories/ParProcs.v
theories/ParCrash.v
theories/ProcExchange.v
theories/ParRules.v
theories/ParLocal.v
theories/ParServer.v
theories/ParEntity.v
theories/ReadProofs.v
theories/ParRead.v
theories/ParSized.v
theories/ParRuns.v
theories/ParGraph.v
theories/ParNet.v
theories/ProcNetCrash.v
theories/ParCrashProofs.v
theories/ParCrashNet.v
theories/PropsProc.v
theories/PropsParProc.v
theories/PropsParCrash.v
theories/ProcCrash.v
theories/PropsCrash.v
theories/Address.v
theories/AddressSpec.v
theories/AddressProofs.v
theories/Boot.v
theories/BootSpec.v
theories/BootProofs.v
theories/PropsBoot.v
theories/PropsRead.v
theories/ReleaseProofs.v
theories/PropsRelease.v
theories/UpstreamSpec.v
theories/TagProofs.v
theories/UpstreamProofs.v
theories/PropsUpstream.v
theories/TamperSpec.v
theories/TamperProofs.v
theories/CheckProofs.v
theories/PropsTamper.v
theories/TalkSpec.v
theories/TalkProofs.v
theories/PropsTalk.v
theories/TrafficSpec.v
theories/TrafficProofs.v
theories/PropsTraffic.v
theories/CountsSpec.v
theories/CountsProofs.v
theories/PropsCounts.v
theories/Orchestrator.v
theories/OrchestratorSpec.v
theories/OrchestratorProofs.v
theories/OrchestratorConfigs.v
theories/OrchestratorQueue.v
theories/PropsOrchestrator.v
theories/OrchestratorKill.v
theories/Daemon.v
theories/DaemonSpec.v
theories/DaemonProofs.v
theories/DaemonLive.v
theories/PropsDaemon.v
theories/Launch.v
theories/LaunchSpec.v
theories/LaunchProofs.v
theories/PropsLaunch.v
theories/Connect.v
theories/ConnectSpec.v
theories/ConnectProofs.v
theories/ConnectScript.v
theories/PropsConnect.v
theories/MeetSpec.v
theories/MeetProofs.v
theories/MeetParty.v
theories/MeetBackend.v
theories/MeetSimulated.v
theories/MeetSimBackend.v
theories/PropsMeet.v
theories/Json.v
theories/JsonSpec.v
theories/JsonProofs.v
theories/JsonWrite.v
theories/Stored.v
theories/StoredSpec.v
theories/StoredProofs.v
theories/PropsStored.v
theories/ShuffleCount.v
theories/ParTrafficSpec.v
theories/ParTraffic.v
theories/PropsParTraffic.v
theories/ParUpstreamSpec.v
theories/ParUpstream.v
theories/PropsParUpstream.v
theories/ParTamperSpec.v
theories/ParTamper.v
theories/PropsParTamper.v
theories/PlainSpec.v
theories/Plain.v
theories/PlainWire.v
theories/PropsPlain.v
theories/ParPlainWire.v
theories/PropsParPlain.v
theories/StageSpec.v
theories/StageProofs.v
theories/PropsStage.v
theories/ParStagesSpec.v
theories/ParStages.v
theories/PropsParStages.v

-Q theories Verif
theories/ApprovalProofs.v
theories/Attest.v
theories/AttestProofs.v
theories/Base.v
theories/BootProofs.v
theories/Borsh.v
theories/BorshLayout.v
theories/BorshProofs.v
theories/Bridge.v
theories/Builder.v
theories/BuilderProofs.v
theories/Calls.v
theories/CallsProofs.v
theories/CalmProofs.v
theories/CanonProofs.v
theories/CliParser.v
theories/CliProofs.v
theories/Client.v
theories/ClientApprove.v
theories/ClientCli.v
theories/ClientFiles.v
theories/ClientNet.v
theories/ClientProofs.v
theories/ClientSets.v
theories/CodecExamples.v
theories/DaemonCli.v
theories/DevBoot.v
theories/EffectProofs.v
theories/Egress.v
theories/EgressInit.v
theories/EgressRun.v
theories/EnclaveCli.v
theories/EnclaveHost.v
theories/Env.v
theories/EnvProofs.v
theories/EnvReach.v
theories/EphHex.v
theories/ExportProofs.v
theories/FileTools.v
theories/Fleet.v
theories/FsProofs.v
theories/Gf256.v
theories/HandleProofs.v
theories/Hex.v
theories/HexProofs.v
theories/HistoryProofs.v
theories/Host.v
theories/Init.v
theories/Invariant.v
theories/IpProofs.v
theories/Json.v
theories/JsonComb.v
theories/JsonCombLaws.v
theories/JsonProofs.v
theories/JsonSound.v
theories/LaterProofs.v
theories/LayoutProofs.v
theories/ListenerFiles.v
theories/MeaningProofs.v
theories/MockNsm.v
theories/Msg.v
theories/MsgBorsh.v
theories/MsgJson.v
theories/MsgJsonLaws.v
theories/NChooseK.v
theories/NetProofs.v
theories/NormProofs.v
theories/NsmTypes.v
theories/P256.v
theories/Pool.v
theories/Posix.v
theories/PropsApproval.v
theories/PropsApprove.v
theories/PropsAttest.v
theories/PropsBind.v
theories/PropsBoot.v
theories/PropsBorsh.v
theories/PropsBridge.v
theories/PropsCalls.v
theories/PropsCanon.v
theories/PropsCeremony.v
theories/PropsCli.v
theories/PropsClient.v
theories/PropsClientCli.v
theories/PropsClientNet.v
theories/PropsCodec.v
theories/PropsConvert.v
theories/PropsDaemonCli.v
theories/PropsDevBoot.v
theories/PropsDocs.v
theories/PropsEgress.v
theories/PropsEgressInit.v
theories/PropsEgressRun.v
theories/PropsEnclaveCli.v
theories/PropsEnclaveHost.v
theories/PropsEnvelope.v
theories/PropsEphHex.v
theories/PropsExport.v
theories/PropsExposed.v
theories/PropsFileTools.v
theories/PropsFiles.v
theories/PropsFleet.v
theories/PropsGenerate.v
theories/PropsGenesis.v
theories/PropsGenesisClient.v
theories/PropsGenesisForgery.v
theories/PropsHex.v
theories/PropsHistory.v
theories/PropsHost.v
theories/PropsInit.v
theories/PropsIp.v
theories/PropsLayout.v
theories/PropsListenerFiles.v
theories/PropsLive.v
theories/PropsMachine.v
theories/PropsMeaning.v
theories/PropsMockNsm.v
theories/PropsNChooseK.v
theories/PropsNsmTypes.v
theories/PropsNumbers.v
theories/PropsP256.v
theories/PropsPool.v
theories/PropsPrivate.v
theories/PropsProxy.v
theories/PropsReaper.v
theories/PropsReencrypt.v
theories/PropsReplay.v
theories/PropsSecrecy.v
theories/PropsServer.v
theories/PropsShamir.v
theories/PropsSignedEcho.v
theories/PropsStream.v
theories/PropsWire.v
theories/PropsYubi.v
theories/ProtocolProofs.v
theories/ProvisionProofs.v
theories/Proxy.v
theories/Reach.v
theories/ReadableProofs.v
theories/Reaper.v
theories/ReaperProofs.v
theories/ReorderProofs.v
theories/Run.v
theories/Server.v
theories/ServiceProofs.v
theories/Services.v
theories/Shamir.v
theories/ShamirProofs.v
theories/SignedEcho.v
theories/SpecApproval.v
theories/SpecAttest.v
theories/SpecBorsh.v
theories/SpecBuilder.v
theories/SpecCalls.v
theories/SpecCanon.v
theories/SpecCli.v
theories/SpecClient.v
theories/SpecClientNet.v
theories/SpecEnv.v
theories/SpecExport.v
theories/SpecGenesis.v
theories/SpecHex.v
theories/SpecHistory.v
theories/SpecIp.v
theories/SpecJson.v
theories/SpecLayout.v
theories/SpecMeaning.v
theories/SpecP256.v
theories/SpecProtocol.v
theories/SpecReadable.v
theories/SpecReaper.v
theories/SpecWire.v
theories/State.v
theories/StorageProofs.v
theories/Stream.v
theories/Toy.v
theories/ToyClient.v
theories/ToyRuns.v
theories/Types.v
theories/TypesBorsh.v
theories/TypesJson.v
theories/TypesJsonLaws.v
theories/TypesJsonProofs.v
theories/Utf8.v
theories/Wire.v
theories/WireConc.v
theories/WireProofs.v
theories/World.v
theories/Yubi.v
